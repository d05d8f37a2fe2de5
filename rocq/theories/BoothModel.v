(** Model of hwtLib/examples/arithmetic/multiplierBooth.py [MultiplierBooth].
    Vectors are unsigned numbers; the registers a, m, q, q_1 have no reset value and are arbitrary at the start.
    The operator >> of a signed vector is the arithmetic shift (semantics of hwt). *)
From Coq Require Export ZArith.
From Verif Require Import Base.

(** 2^k *)
Definition p2 (k : nat) : Z := (2 ^ Z.of_nat k)%Z.

Record bo_st := mk_bo { b_a : Z; b_m : Z; b_q : Z; b_q1 : bool; b_cnt : nat; b_wait : bool }.
Record bo_in := mk_boi { oi_vld : bool; oi_a : Z; oi_b : Z; oi_rd : bool }.
Record bo_out := mk_boo { oo_rd : bool; oo_vld : bool; oo_data : Z }.

(** multiplierBooth.py:96-98 ([sg] = 0: the default branch, 1: add, -1: sub), all in DATA_WIDTH = [n] bits *)
Definition bo_sum (n : nat) (sg a m : Z) : Z := ((a + sg * m) mod p2 n)%Z.
(** multiplierBooth.py:110, :114, :117: the arithmetic shift of a vector of [n] bits *)
Definition bo_asr (n : nat) (x : Z) : Z := (((if x <? p2 (n - 1) then x else x - p2 n) / 2) mod p2 n)%Z.
(** multiplierBooth.py:111, :115, :118: Concat(x[0], q[:1]) *)
Definition bo_shq (n : nat) (x q : Z) : Z := ((x mod 2) * p2 (n - 1) + q / 2)%Z.
(** multiplierBooth.py:107-119, the Switch *)
Definition bo_sel (q : Z) (q1 : bool) : Z :=
  match Z.odd q, q1 with false, true => 1 | true, false => -1 | _, _ => 0 end%Z.

(** multiplierBooth.py:75-136; [n] = DATA_WIDTH, RESULT_WIDTH = 2 * DATA_WIDTH *)
Definition bo_step (n : nat) (s : bo_st) (i : bo_in) : bo_st * bo_out :=
  let done := b_cnt s =? 0 in
  let start := oi_vld i && done && negb (b_wait s) in
  let x := bo_sum n (bo_sel (b_q s) (b_q1 s)) (b_a s) (b_m s) in
  let w := if start then true else if done && oi_rd i then false else b_wait s in
  (if start then mk_bo 0 (oi_a i) (oi_b i) false n w
   else if negb done then mk_bo (bo_asr n x) (b_m s) (bo_shq n x (b_q s)) (Z.odd (b_q s)) (b_cnt s - 1) w
   else mk_bo (b_a s) (b_m s) (b_q s) (b_q1 s) (b_cnt s) w,
   mk_boo (done && negb (b_wait s)) (done && b_wait s) (b_a s * p2 n + b_q s)%Z).

(** multiplierBooth.py:79-94: the values after reset *)
Definition bo_init (a m q : Z) (q1 : bool) : bo_st := mk_bo a m q q1 0 false.
