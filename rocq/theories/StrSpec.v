(** What StructReader has to request. *)
From Verif Require Import Base StrModel.
Local Open Scope nat_scope.

Fixpoint sr_reqs (l : list sro) : list (N * N * N) := match l with [] => [] | o :: l' => match ro_req o with Some r => r :: sr_reqs l' | None => sr_reqs l' end end.
Definition gets (l : list sro) : nat := length (filter ro_get l).
(** the bytes which a request means: the first and the number; rem 0 means the whole last word (hwtLib/amba/datapump/r.py:42-43) *)
Definition bytes_of (dw : N) (r : N * N * N) : N * N :=
  let '(addr, len, rem) := r in (addr, if (rem =? 0)%N then (len + 1) * (dw / 8) else len * (dw / 8) + rem)%N.
(** the bytes of a frame of the structure at the address *)
Definition frame_bytes (aw : N) (a : N) (f : layout) : N * N := (((a + fst f / 8) mod 2 ^ aw)%N, ((snd f - fst f) / 8)%N).
(** words have whole bytes; the frame has whole bytes and is not empty *)
Definition frame_ok (f : layout) : Prop := (fst f < snd f /\ (snd f - fst f) mod 8 = 0)%N.
