(** Model of hwtLib/logic/lfsr.py [Lfsr]. Bit vectors are lists, least significant bit first. *)
From Verif Require Import Base.

(** nextBit = Xor of the accumulator bits selected by POLY, lfsr.py:43-49 *)
Definition next_bit (poly acc : list bool) : bool :=
  fold_left xorb (map (fun p : bool * bool => fst p && snd p) (combine poly acc)) false.

(** accumulator(Concat(accumulator[POLY_WIDTH - 1:], nextBit)), lfsr.py:50; dataOut(accumulator[0]), :51 *)
Definition lfsr_step (poly acc : list bool) (_ : unit) : list bool * bool :=
  (next_bit poly acc :: removelast acc, hd false acc).

(** accumulator after [n] clock cycles, and dataOut in cycle [n] *)
Definition lfsr_state (poly init : list bool) (n : nat) : list bool := final (lfsr_step poly) init (repeat tt n).
Definition lfsr_out (poly init : list bool) (n : nat) : bool := snd (lfsr_step poly (lfsr_state poly init n) tt).
