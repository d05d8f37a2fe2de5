(** Runs of the endpoint buffers for the examples. *)
From Verif Require Import Base FifoCopyModel EpbModel EpbSpec.

(** endpoint 0 without a buffer, endpoints 1 and 3 with buffers of 8 and 4 words *)
Definition eb_chs : list (nat * option (nat * nat)) := [(0, None); (1, Some (8, 4)); (3, Some (4, 4))].
Definition eb_w (d : nat) (l : bool) : cword nat unit := mk_cw d tt l.
Definition eb_init : ep_st nat := ep_init eb_chs (fun _ _ => eb_w 0 false) (fun _ => eb_w 0 false).
(** endpoint [e] gives a word, the host does nothing *)
Definition eb_give (e d : nat) (l : bool) : ep_in nat := mk_epi (fun x => x =? e) (fun _ => eb_w d l) false 0 false false false.
(** the host talks with endpoint [e] *)
Definition eb_talk (e : nat) : ep_in nat := mk_epi (fun _ => false) (fun _ => eb_w 0 false) true e true false false.
Definition eb_fail (e : nat) : ep_in nat := mk_epi (fun _ => false) (fun _ => eb_w 0 false) true e false true false.
Definition eb_both (e d : nat) (l : bool) : ep_in nat := mk_epi (fun x => x =? e) (fun _ => eb_w d l) true e true false false.
Definition eb_run : list (ep_in nat) :=
  [eb_give 1 10 false; eb_give 1 11 false; eb_talk 1; eb_talk 1; eb_give 1 12 true; eb_both 0 5 true; eb_talk 1; eb_talk 1; eb_talk 1; eb_talk 1; eb_talk 1].
Definition eb_two : list (ep_in nat) :=
  [eb_give 1 1 true; eb_give 1 2 true; eb_talk 1; eb_fail 1; eb_talk 1; eb_talk 1; eb_talk 1].
Definition eb_long : list (ep_in nat) := [eb_give 3 1 false; eb_give 3 2 false].
Definition eb_wait : list (ep_in nat) := [eb_give 1 1 false; eb_give 1 2 true].
