(** Routing of an access on IPIF. *)
From Verif Require Import Base IpimModel.

(** the address belongs to the slave *)
Definition im_has (s : nat * nat) (a : nat) : Prop := fst s <= a < fst s + snd s.
(** Sizes are powers of two of at least two, offsets are aligned and regions are disjoint (ensured by the constructor, C35); regions lie
    in the address space and are smaller than it. *)
Definition im_map_ok (l : list (nat * nat)) (AW : nat) : Prop :=
  (forall s, In s l -> (exists k, 1 <= k < AW /\ snd s = 2 ^ k) /\ fst s mod snd s = 0 /\ fst s + snd s <= 2 ^ AW) /\
  (forall i j s q a, nth_error l i = Some s -> nth_error l j = Some q -> im_has s a -> im_has q a -> i = j).
(** The slave of the address is selected, with the offset in its region; the master gets its answer. All other slaves are not selected. *)
Definition im_routed {P D} (l : list (nat * nat)) (i : im_in P D) (o : im_out P D) : Prop :=
  (forall j, mo_cs o j = true <-> mi_cs i = true /\ exists s, nth_error l j = Some s /\ im_has s (mi_addr i)) /\
  (forall j s, nth_error l j = Some s -> im_has s (mi_addr i) ->
     fst s + mo_addr o j = mi_addr i /\ mo_p o j = mi_p i /\
     mo_err o = r_err (mi_s i j) /\ mo_rdack o = r_rdack (mi_s i j) /\ mo_wrack o = r_wrack (mi_s i j) /\ mo_data o = Some (r_data (mi_s i j))) /\
  ((forall j s, nth_error l j = Some s -> ~ im_has s (mi_addr i)) ->
     mo_err o = false /\ mo_rdack o = false /\ mo_wrack o = false).
