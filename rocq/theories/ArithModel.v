(** Models of hwtLib/examples/hierarchy/rippleadder.py and hwtLib/logic/pid.py. *)
From Coq Require Export ZArith.
From Verif Require Import Base.

(** rippleadder.py:28-34 [FullAdder]: sum and carry *)
Definition full_adder (a b ci : bool) : bool * bool := (xorb (xorb a b) ci, a && b || a && ci || b && ci).

(** rippleadder.py:215-243 [RippleAdder3]: the carry goes through the list of the adders; bit 0 is first. RippleAdder1
    (rippleadder.py:130-142) and RippleAdder2 (rippleadder.py:168-186) connect the same adders through the bits of the vector c,
    see [ripple_c]. *)
Fixpoint ripple (a b : list bool) (ci : bool) : list bool * bool :=
  match a, b with
  | x :: a', y :: b' =>
      let f := full_adder x y ci in
      let r := ripple a' b' (snd f) in
      (fst f :: fst r, snd r)
  | _, _ => ([], ci)
  end.

(** rippleadder.py:130-142, :168-186 [RippleAdder1], [RippleAdder2]: [c] is the vector of carries, one bit longer than the
    operands; the equations say what drives each bit of c, s and co. *)
Record ripple_c (a b s c : list bool) (ci co : bool) : Prop := mk_rc {
  rc_c0 : nth_error c 0 = Some ci;
  rc_len : length c = length a + 1 /\ length b = length a /\ length s = length a;
  rc_fa : forall i x y k, nth_error a i = Some x -> nth_error b i = Some y -> nth_error c i = Some k ->
    nth_error c (i + 1) = Some (snd (full_adder x y k)) /\ nth_error s i = Some (fst (full_adder x y k));
  rc_co : nth_error c (length a) = Some co
}.

(** rippleadder.py:62-104 [RippleAdder0], four bits *)
Definition ripple0 (a0 a1 a2 a3 ci : bool) : list bool * bool :=
  let f0 := full_adder a0 a0 ci in
  let c := snd f0 in
  ([fst f0; fst (full_adder a1 a1 c); fst (full_adder a2 a2 c); fst (full_adder a3 a3 c)], c).

(** pid.py:47-87 [PidController]. The numbers are the values of signed vectors; the arithmetic is modulo 2^[n], n = DATAIN_WIDTH
    = COEF_WIDTH (operators of hwt ask for operands of the same width). u keeps the residue. *)
Record pid_st := mk_pid { pd_u : Z; pd_y0 : Z; pd_y1 : Z }.
Record pid_in := mk_pidi { pi_in : Z; pi_target : Z; pi_a0 : Z; pi_a1 : Z; pi_a2 : Z; pi_a3 : Z }.
Definition pid_init : pid_st := mk_pid 0 0 0.
(** pid.py:67-86 *)
Definition pid_step (n : nat) (s : pid_st) (i : pid_in) : pid_st * Z :=
  let err := (pi_in i - pi_target i)%Z in
  (mk_pid ((pd_u s + pi_a0 i * err + pi_a1 i * pi_in i + pi_a2 i * pd_y0 s + pi_a3 i * pd_y1 s) mod 2 ^ Z.of_nat n)%Z
          (pi_in i) (pd_y0 s), pd_u s).
