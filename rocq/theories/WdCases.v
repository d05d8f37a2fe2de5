(** Runs used by examples of WdProps. *)
From Verif Require Import Base WdModel.

Definition win : Type := wd_in nat nat (nat * nat) nat.
Definition ws0 : wd_st nat nat (nat * nat) := wd_init 0 0 false ((0, 0), false) ((0, 0), false).
(** offered item, data of the memory, aw.ready, w.ready *)
Definition item (v : bool) (x k d : nat) (a w : bool) : win := mk_wi v x k true (d, 15) a w false 0 false.
Definition two_items : list win :=
  [item true 5 100 0 false true; item true 5 100 0 true true; item true 5 100 10 true false; item true 7 200 11 false false; item true 7 200 0 true false; item true 7 200 0 true true;
   item true 7 200 20 false true; item false 0 0 21 true true; item false 0 0 0 true true; item false 0 0 0 true true].
Definition three : list win := repeat (item true 5 100 1 true true) 4 ++ repeat (item false 0 0 9 true true) 3.
