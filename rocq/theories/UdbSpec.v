(** What a user expects from a bundle of USB descriptors. *)
From Verif Require Import Base UdbModel.

(** all bytes of the descriptors *)
Definition all_bytes (ds : list ud) : list nat := concat (map d_bytes ds).
(** place of the descriptors of type [t], the first descriptor has address [a] *)
Fixpoint places (t a : nat) (ds : list ud) : list (nat * nat) :=
  match ds with
  | [] => []
  | d :: ds' => (if d_type d =? t then [(a, length (d_bytes d))] else []) ++ places t (a + length (d_bytes d)) ds'
  end.
(** type ([f] of the transfer type and of the synchronisation type) and maximal packet of the descriptors of an endpoint *)
Definition of_ep (f : nat -> nat -> nat) (a : nat) (dir : bool) (ds : list ud) : list (nat * nat) :=
  flat_map (fun d => match d_kind d with
                     | KEp a' dir' ty sync mps => if (a' =? a) && Bool.eqb dir' dir then [(f ty sync, mps)] else []
                     | _ => []
                     end) ds.
Definition has_type (t : nat) (l : list (nat * nat)) : bool := existsb (fun x => fst x =? t) l.
(** record of the endpoint: none without a descriptor *)
Definition want_by (f : nat -> nat -> nat) (a : nat) (dir : bool) (ds : list ud) : option ep_meta :=
  match of_ep f a dir ds with
  | [] => None
  | l => Some (mk_em a dir (has_type 0 l) (has_type 2 l) (has_type 3 l) (has_type 1 l) (list_max (map snd l)) (2 * list_max (map snd l)))
  end.
Definition want : nat -> bool -> list ud -> option ep_meta := want_by (fun ty _ => ty).
(** endpoint 0 is described by the descriptor of the device *)
Definition want0 (dir : bool) (ds : list ud) : option ep_meta :=
  match flat_map (fun d => match d_kind d with KDev ps => [ps] | _ => [] end) ds with
  | [] => None
  | ps :: _ => Some (mk_em 0 dir true false false false ps (2 * ps))
  end.
Definition entry (l : eps) (a : nat) (dir : bool) : option ep_meta :=
  match nth_error l a with Some p => if dir then snd p else fst p | None => None end.
(** the table of endpoints *)
Definition meta_law (ds : list ud) (l : eps) : Prop :=
  forall dir, entry l 0 dir = want0 dir ds /\ forall a, 0 < a -> entry l a dir = want a dir ds.
(** descriptor of the device at most once and before those of endpoints, endpoints have a positive address *)
Definition is_dev (d : ud) : bool := match d_kind d with KDev _ => true | _ => false end.
Definition is_ep (d : ud) : bool := match d_kind d with KEp _ _ _ _ _ => true | _ => false end.
Definition bundle_ok (ds : list ud) : Prop :=
  (exists d0 d1, ds = d0 ++ d1 /\ existsb is_ep d0 = false /\ existsb is_dev d1 = false /\ length (filter is_dev d0) <= 1) /\
  forall d a dir ty sync mps, In d ds -> d_kind d = KEp a dir ty sync mps -> 0 < a /\ ty < 4 /\ sync < 4.
(** the synchronisation type is the same number as the transfer type *)
Definition same_types (ds : list ud) : Prop := forall d a dir ty sync mps, In d ds -> d_kind d = KEp a dir ty sync mps -> sync = ty.
(** what does not depend on the type: presence, index, direction and sizes *)
Definition shape (m : ep_meta) : nat * bool * nat * nat := (em_index m, em_dir m, em_mps m, em_buf m).
