(** C60: ripple-carry adders; C61: PidController. *)
From Verif Require Import Base ArithModel ArithSpec ArithProofs.

(** RippleAdder3: the sum with the carry out is the sum of the operands and the carry in, for every width. *)
Theorem C60_ripple_adder (a b : list bool) (ci : bool) : length b = length a ->
  let r := ripple a b ci in
  length (fst r) = length a /\ num (fst r) + 2 ^ length a * bit (snd r) = num a + num b + bit ci.
Proof. exact (ripple_sum a b ci). Qed.
Print Assumptions C60_ripple_adder.
(** RippleAdder1 and RippleAdder2: the equations of the wires have a solution and every solution is the sum. *)
Theorem C60_ripple_adder_wires (a b : list bool) (ci : bool) : length b = length a ->
  (exists s c co, ripple_c a b s c ci co) /\
  forall s c co, ripple_c a b s c ci co -> num s + 2 ^ length a * bit co = num a + num b + bit ci.
Proof. exact (ripple_wires a b ci). Qed.
Print Assumptions C60_ripple_adder_wires.
Example C60_example : ripple [true; false; true; true] [true; true; false; true] true = ([true; false; false; true], true) /\
  num [true; false; true; true] = 13 /\ num [true; true; false; true] = 11 /\ num [true; false; false; true] + 16 = 13 + 11 + 1.
Proof. repeat split. Qed.
(** RippleAdder0 connects operand a twice and uses the carry of bit 0 everywhere. *)
Theorem C60_ripple_adder0_refuted : exists a0 a1 a2 a3 ci, exists b, length b = 4 /\
  num (fst (ripple0 a0 a1 a2 a3 ci)) + 2 ^ 4 * bit (snd (ripple0 a0 a1 a2 a3 ci)) <> num [a0; a1; a2; a3] + num b + bit ci.
Proof. exact ripple0_bad. Qed.
Print Assumptions C60_ripple_adder0_refuted.

(** The output obeys the documented equation with the coefficient a0 negated, i.e. with the error input - target. *)
Theorem C61_pid_partial (n : nat) (is : list pid_in) (i : pid_in) :
  snd (pid_step n (final (pid_step n) pid_init is) i) =
  (pid_u (fun target input => input - target) is (length is) mod 2 ^ Z.of_nat n)%Z.
Proof. exact (pid_out n is i). Qed.
Print Assumptions C61_pid_partial.
Example C61_example : snd (pid_step 16 (final (pid_step 16) pid_init ex_pid) (mk_pidi 0 0 0 0 0 0)) = (65536 - 7)%Z.
Proof. vm_compute. reflexivity. Qed.
(** The documentation says that the error is target - input. *)
Theorem C61_pid_refuted : exists is i, snd (pid_step 16 (final (pid_step 16) pid_init is) i) <>
  (pid_u (fun target input => target - input) is (length is) mod 2 ^ 16)%Z.
Proof. exact pid_bad. Qed.
Print Assumptions C61_pid_refuted.
