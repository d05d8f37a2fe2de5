(** What StructWriter has to do with the addresses of structures. *)
From Verif Require Import Base StwModel.
Local Open Scope nat_scope.

(** requests made in the history *)
Fixpoint reqs (l : list swo) : list fr := match l with [] => [] | o :: l' => match o_req o with Some r => r :: reqs l' | None => reqs l' end end.
Definition count (f : swo -> bool) (l : list swo) : nat := length (filter f l).
(** requests for a structure at the address: one for each its frame *)
Definition reqs_at (aw : N) (fs : list fr) (a : N) : list fr := map (fun f => let '(start, len, rem) := f in (((a + start) mod 2 ^ aw)%N, len, rem)) fs.
