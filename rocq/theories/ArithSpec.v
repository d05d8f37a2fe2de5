From Verif Require Import Base ArithModel.

(** the number which a list of bits stands for, bit 0 first *)
Fixpoint num (l : list bool) : nat := match l with [] => 0 | x :: l' => (if x then 1 else 0) + 2 * num l' end.
Definition bit (b : bool) : nat := if b then 1 else 0.

(** The equation of the documentation (pid.py:16): u(k) = u(k-1) + a0*e(k) + a1*y(k) + a2*y(k-1) + a3*y(k-2), where [e] gives
    the error from the target and the input; values before the first step are 0. [is] lists the inputs of the steps. *)
Definition y_at (is : list pid_in) (k : nat) (back : nat) : Z :=
  if back <=? k then match nth_error is (k - back) with Some i => pi_in i | None => 0%Z end else 0%Z.
Definition pid_term (e : Z -> Z -> Z) (is : list pid_in) (k : nat) : Z :=
  match nth_error is k with
  | Some i => (pi_a0 i * e (pi_target i) (pi_in i) + pi_a1 i * y_at is k 0 + pi_a2 i * y_at is k 1 + pi_a3 i * y_at is k 2)%Z
  | None => 0%Z
  end.
(** the value of u after the first [k] steps *)
Fixpoint pid_u (e : Z -> Z -> Z) (is : list pid_in) (k : nat) : Z :=
  match k with O => 0%Z | S j => (pid_u e is j + pid_term e is j)%Z end.
