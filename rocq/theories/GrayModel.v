(** Model of hwtLib/logic/cntrGray.py. *)
From Verif Require Import Base.
From Coq Require Import NArith.

(** cntrGray.py:16-20 [binToGray]; the operand is a w-bit vector, which the result is as well. *)
Definition bin_to_gray (b : N) : N := N.lxor (N.shiftr b 1) b.

(** cntrGray.py:27-54 [GrayCntr]: cntr_bin_reg starts at INIT_VAL, input en, output dataOut. *)
Definition gray_cntr_step (w : N) (s : N) (en : bool) : N * N :=
  ((if en then (s + 1) mod 2 ^ w else s)%N, bin_to_gray s).
