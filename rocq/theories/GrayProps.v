From Verif Require Import Base GrayModel GraySpec GrayProofs.
From Coq Require Import NArith.
Local Open Scope N_scope.

(** C21: binToGray is a bijection on w-bit numbers ... *)
Theorem C21_gray_bijection :
  forall w : nat,
    (forall b, b < 2 ^ N.of_nat w -> bin_to_gray b < 2 ^ N.of_nat w) /\
    (forall a b, bin_to_gray a = bin_to_gray b -> a = b) /\
    (forall g, g < 2 ^ N.of_nat w -> exists b, b < 2 ^ N.of_nat w /\ bin_to_gray b = g).
Proof. exact (fun w => conj (gray_lt (N.of_nat w)) (conj gray_inj (gray_surj w))). Qed.
Print Assumptions C21_gray_bijection.

(** ... consecutive numbers (with the wrap) have codes one bit apart ... *)
Theorem C21_gray_one_bit :
  forall w b, 1 <= w -> b < 2 ^ w -> one_bit_apart w (bin_to_gray b) (bin_to_gray ((b + 1) mod 2 ^ w)).
Proof. exact gray_step. Qed.
Print Assumptions C21_gray_one_bit.

(** ... and dataOut of GrayCntr after any history [is] of en: the next enabled cycle changes
    exactly one bit, a disabled one none; the value is the code of INIT_VAL + number of enables. *)
Theorem C21_gray_counter :
  forall (w init : N) (is : list bool) (i : bool), 1 <= w -> init < 2 ^ w ->
    let out js := snd (gray_cntr_step w (final (gray_cntr_step w) init js) false) in
    out is = bin_to_gray ((init + N.of_nat (length (filter id is))) mod 2 ^ w) /\
    (if i then one_bit_apart w (out is) (out (is ++ [i])) else out (is ++ [i]) = out is).
Proof. exact cntr_law. Qed.
Print Assumptions C21_gray_counter.

Example C21_example : map bin_to_gray [0; 1; 2; 3; 4; 5; 6; 7] = [0; 1; 3; 2; 6; 7; 5; 4].
Proof. reflexivity. Qed.
Example C21_wrap_example : one_bit_apart 3 (bin_to_gray 7) (bin_to_gray ((7 + 1) mod 2 ^ 3)).
Proof. apply gray_step; reflexivity || discriminate. Qed.
