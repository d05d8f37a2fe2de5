(** C59: MultiplierBooth multiplies. *)
From Verif Require Import Base StreamSpec BoothModel BoothSpec BoothProofs.
Open Scope Z_scope.

(** For every width, every history of operands whose first one is not the minimum, and every back-pressure: the results
    are the signed products of the operands in order, and an offered result stays offered.
    Missing: the minimum as the first operand, see below. *)
Theorem C59_booth_partial (n : nat) (a m q : Z) (q1 : bool) (is : list bo_in) : (1 <= n)%nat ->
  Forall (bo_vec n) is -> Forall (fun i => oi_a i <> 2 ^ (Z.of_nat n - 1)) is ->
  let t := map bo_obs (trace (bo_step n) (bo_init a m q q1) is) in products n t /\ out_stable t.
Proof. exact (fun Hn H1 H2 => conj (booth_products n a m q q1 is Hn H1 H2) (booth_stable n is _)). Qed.
Print Assumptions C59_booth_partial.
(** The result is valid n cycles after the operands were taken and not earlier. *)
Theorem C59_booth_latency (n : nat) (s : bo_st) (i : bo_in) (js : list bo_in) (k : bo_in) :
  oi_vld i && oo_rd (snd (bo_step n s i)) = true -> (length js <= n)%nat ->
  oo_vld (snd (bo_step n (final (bo_step n) s (i :: js)) k)) = (length js =? n)%nat.
Proof. exact (booth_latency n s i js k). Qed.
Print Assumptions C59_booth_latency.
Example C59_example : let t := map bo_obs (trace (bo_step 4) (bo_init 5 5 5 true) (ex_bo_in 13 7)) in
  Forall (bo_vec 4) (ex_bo_in 13 7) /\ Forall (fun i => oi_a i <> 8) (ex_bo_in 13 7) /\
  accepted t = [(13, 7)] /\ map (as_signed 8) (delivered t) = [-21].
Proof. exact ex_bo. Qed.
(** With the minimum as the first operand, which the documentation allows, the result is wrong: -8 * 1 = 8. *)
Theorem C59_booth_refuted : exists is, Forall (bo_vec 4) is /\
  ~ products 4 (map bo_obs (trace (bo_step 4) (bo_init 0 0 0 false) is)).
Proof. exact booth_refuted. Qed.
Print Assumptions C59_booth_refuted.
Example C59_wrong : let t := map bo_obs (trace (bo_step 4) (bo_init 0 0 0 false) (ex_bo_in 8 1)) in
  Forall (bo_vec 4) (ex_bo_in 8 1) /\
  accepted t = [(8, 1)] /\ as_signed 4 8 = -8 /\ as_signed 4 1 = 1 /\ map (as_signed 8) (delivered t) = [8].
Proof. exact booth_bad. Qed.
