(** Example runs of AvalonMmBuff. *)
From Verif Require Import Base AmbModel.

Definition bin := amb_in nat nat nat.
Definition nop : rq nat := (false, false, 0).
Definition b0 (ab db : nat) : amb_st nat nat nat := amb_init ab db (fun _ => nop) nop (fun _ => 0) 0 (fun _ => 0) 0.
(** two words of a read in consecutive cycles, then idle *)
Definition two_words : list bin := [mk_ai nop true true 7 false 0; mk_ai nop true true 8 false 0] ++ repeat (mk_ai nop true false 0 false 0) 20.
(** read of 5 with a slave which waits, write of 6, answers *)
Definition mixed : list bin := [mk_ai (true, false, 5) true false 0 false 0; mk_ai (false, true, 6) true true 7 false 0; mk_ai (false, true, 6) false true 8 false 0;
  mk_ai nop false false 0 true 2; mk_ai nop false false 0 false 0; mk_ai nop false false 0 false 0; mk_ai nop false false 0 false 0].
