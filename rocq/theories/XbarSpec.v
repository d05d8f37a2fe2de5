(** Specification vocabulary of the AXI interconnects: requests, where they belong and the data which belong to them. *)
From Verif Require Import Base XbarModel.

(** the address belongs to the region (address, size) *)
Definition owns (r : nat * nat) (a : nat) : Prop := fst r <= a < fst r + snd r.
(** a region acceptable for a bus with addresses of [aw] bits: its size is a power of two, its address a multiple of the size *)
Definition region_ok (aw : nat) (r : nat * nat) : Prop := (exists k, snd r = 2 ^ k) /\ fst r mod snd r = 0 /\ fst r + snd r <= 2 ^ aw.
Definition regions_ok (aw ns : nat) (region : nat -> nat * nat) : Prop :=
  (forall s, s < ns -> region_ok aw (region s)) /\
  (forall s s' a, s < ns -> s' < ns -> owns (region s) a -> owns (region s') a -> s = s').
(** no connected pair is separate from the others *)
Definition shared (nm ns : nat) (conn : nat -> nat -> bool) : Prop :=
  forall m s, m < nm -> s < ns -> conn m s = true ->
    (exists s', s' < ns /\ s' <> s /\ conn m s' = true) \/ (exists m', m' < nm /\ m' <> m /\ conn m' s = true).
(** connected only to each other *)
Definition alone (nm ns : nat) (conn : nat -> nat -> bool) (m s : nat) : Prop :=
  conn m s = true /\ (forall s', s' < ns -> conn m s' = true -> s' = s) /\ (forall m', m' < nm -> conn m' s = true -> m' = m).
(** the address belongs to a slave connected to the master *)
Definition mapped (ns : nat) (conn : nat -> nat -> bool) (region : nat -> nat * nat) (m a : nat) : Prop := exists s, s < ns /\ conn m s = true /\ owns (region s) a.

(** a request: its master, its slave, the payload of the address channel, the words of the data channel which belong to it *)
Record tx (A B : Type) := mk_tx { tx_m : nat; tx_s : nat; tx_a : nat * B; tx_ws : list A }.
Arguments mk_tx {A B}. Arguments tx_m {A B}. Arguments tx_s {A B}. Arguments tx_a {A B}. Arguments tx_ws {A B}.
Section Tx.
  Context {A B : Type}.
  Definition of_m (m : nat) (l : list (tx A B)) : list (tx A B) := filter (fun x => tx_m x =? m) l.
  Definition of_s (s : nat) (l : list (tx A B)) : list (tx A B) := filter (fun x => tx_s x =? s) l.
  Definition words (l : list (tx A B)) : list A := flat_map tx_ws l.
  (** complete data of a request: the only word marked as the last is at the end *)
  Definition whole (lst : A -> bool) (ws : list A) : Prop := exists l w, ws = l ++ [w] /\ lst w = true /\ Forall (fun x => lst x = false) l.
  (** the data of the requests come in the order of the requests, one request after another *)
  Fixpoint in_order (lst : A -> bool) (l : list (tx A B)) : Prop :=
    match l with
    | [] => True
    | x :: r => (whole lst (tx_ws x) /\ in_order lst r) \/ (Forall (fun w => lst w = false) (tx_ws x) /\ Forall (fun y => tx_ws y = []) r)
    end.
  (** the number of requests whose data are complete *)
  Definition finished (lst : A -> bool) (l : list A) : nat := length (filter lst l).
  Definition finished_o (lst : A -> bool) (l : list (option A)) : nat := length (filter (fun o => match o with Some w => lst w | None => false end) l).
  Definition req (x : tx A B) : nat * nat * (nat * B) := (tx_m x, tx_s x, tx_a x).
  (** every request goes to a slave connected to its master, to the one which owns the address *)
  Definition sent_right (nm ns : nat) (conn : nat -> nat -> bool) (region : nat -> nat * nat) (l : list (tx A B)) : Prop :=
    Forall (fun x => tx_m x < nm /\ tx_s x < ns /\ conn (tx_m x) (tx_s x) = true /\ owns (region (tx_s x)) (fst (tx_a x))) l.
  (** the payload on the channel of the slave: the address is relative to the region *)
  Definition at_slave (region : nat -> nat * nat) (x : tx A B) : option (nat * B) := Some (fst (tx_a x) - fst (region (tx_s x)), snd (tx_a x)).
End Tx.

(** * what is transferred on the channels of AxiInterconnectMatrixR *)
Section R.
  Context {A B : Type}.
  Notation cyc := (xr_in A B * xr_out A B)%type.
  Definition ar_from (m : nat) (t : list cyc) : list (nat * B) := flat_map (fun c => if ri_arv (fst c) m && ro_ard (snd c) m then [ri_ar (fst c) m] else []) t.
  Definition ar_to (s : nat) (t : list cyc) : list (option (nat * B)) := flat_map (fun c => if ro_arv (snd c) s && ri_ard (fst c) s then [ro_ar (snd c) s] else []) t.
  Definition r_from (s : nat) (t : list cyc) : list A :=
    flat_map (fun c => match ri_r (fst c) s with Some w => if ro_rrd (snd c) s then [w] else [] | None => [] end) t.
  Definition r_to (m : nat) (t : list cyc) : list (option A) := flat_map (fun c => if ro_rv (snd c) m && ri_rrd (fst c) m then [ro_r (snd c) m] else []) t.
  (** a request offered to the slave stays on the channel until the slave takes it *)
  Definition ar_stays (s : nat) (t : list cyc) : Prop :=
    forall k c c', nth_error t k = Some c -> nth_error t (S k) = Some c' -> ro_arv (snd c) s = true -> ri_ard (fst c) s = false ->
      ro_arv (snd c') s = true /\ ro_ar (snd c') s = ro_ar (snd c) s.
  (** the offer itself stays *)
  Definition ar_waits (s : nat) (t : list cyc) : Prop :=
    forall k c c', nth_error t k = Some c -> nth_error t (S k) = Some c' -> ro_arv (snd c) s = true -> ri_ard (fst c) s = false -> ro_arv (snd c') s = true.
  (** the addresses of the masters fit to the address bus *)
  Definition ar_fits (nm aw : nat) (i : xr_in A B) : Prop := forall m, m < nm -> ri_arv i m = true -> fst (ri_ar i m) < 2 ^ aw.
End R.

(** * what is transferred on the channels of AxiInterconnectMatrixW *)
Section W.
  Context {A B R : Type}.
  Notation cyc := (xw_in A B R * xw_out A B R)%type.
  Definition aw_from (m : nat) (t : list cyc) : list (nat * B) := flat_map (fun c => if wi_awv (fst c) m && wo_ard (snd c) m then [wi_aw (fst c) m] else []) t.
  Definition aw_to (s : nat) (t : list cyc) : list (option (nat * B)) := flat_map (fun c => if wo_awv (snd c) s && wi_ard (fst c) s then [wo_aw (snd c) s] else []) t.
  Definition w_from (m : nat) (t : list cyc) : list A := flat_map (fun c => if wi_wv (fst c) m && wo_wrd (snd c) m then [wi_w (fst c) m] else []) t.
  Definition w_to (s : nat) (t : list cyc) : list (option A) := flat_map (fun c => if wo_wv (snd c) s && wi_wrd (fst c) s then [wo_w (snd c) s] else []) t.
  Definition b_from (s : nat) (t : list cyc) : list R :=
    flat_map (fun c => match wi_b (fst c) s with Some w => if wo_brd (snd c) s then [w] else [] | None => [] end) t.
  Definition b_to (m : nat) (t : list cyc) : list (option R) := flat_map (fun c => if wo_bv (snd c) m && wi_brd (fst c) m then [wo_b (snd c) m] else []) t.
  Definition aw_stays (s : nat) (t : list cyc) : Prop :=
    forall k c c', nth_error t k = Some c -> nth_error t (S k) = Some c' -> wo_awv (snd c) s = true -> wi_ard (fst c) s = false ->
      wo_awv (snd c') s = true /\ wo_aw (snd c') s = wo_aw (snd c) s.
  Definition aw_waits (s : nat) (t : list cyc) : Prop :=
    forall k c c', nth_error t k = Some c -> nth_error t (S k) = Some c' -> wo_awv (snd c) s = true -> wi_ard (fst c) s = false -> wo_awv (snd c') s = true.
  Definition aw_fits (nm aw : nat) (i : xw_in A B R) : Prop := forall m, m < nm -> wi_awv i m = true -> fst (wi_aw i m) < 2 ^ aw.
End W.
