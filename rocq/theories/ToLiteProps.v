(** C66: Axi_to_AxiLite. *)
From Verif Require Import Base ToLiteModel ToLiteSpec ToLiteProofs.

(** For every schedule: the addresses given to the lite slave are those of the beats of the accepted bursts, in order; its responses
    are passed in order with the id and last of their beat (all of them for reads, those of the last beats for writes). *)
Theorem C66_to_lite (P : Type) (AW LW : nat) (STEP : N) (DEPTH : nat) (lastonly : bool) m0 d0 a x y (is : list (tl_in P)) :
  2 <= DEPTH -> Forall (tl_in_ok AW LW) is ->
  bridge_law AW STEP lastonly (trace (tl_step AW LW STEP DEPTH lastonly) (tl_init DEPTH m0 d0 a x y) is).
Proof. exact (fun H => tl_law AW LW STEP DEPTH lastonly H m0 d0 a x y is). Qed.
Print Assumptions C66_to_lite.
(** While responses are outstanding: after at most two cycles the ready of the master is passed to the lite slave. *)
Theorem C66_to_lite_progress (P : Type) (AW LW : nat) (STEP : N) (DEPTH : nat) (lastonly : bool) m0 d0 a x y (is : list (tl_in P)) i1 i2 i3 :
  2 <= DEPTH -> Forall (tl_in_ok AW LW) is ->
  let step := tl_step AW LW STEP DEPTH lastonly in
  let t := trace step (tl_init DEPTH m0 d0 a x y) is in
  length (flat_map beat1 t) < length (flat_map tags (flat_map req1 t)) ->
  exists c, In c (trace step (final step (tl_init DEPTH m0 d0 a x y) is) [i1; i2; i3]) /\ ri_rd (snd c) = ro_rd (fst c).
Proof. exact (fun H => tl_live AW LW STEP DEPTH lastonly H m0 d0 a x y is i1 i2 i3). Qed.
Print Assumptions C66_to_lite_progress.
Example C66_example : 2 <= 4 /\ Forall (tl_in_ok 4 2) ex_tl /\
  let t := trace (tl_step 4 2 4%N 4 false) (tl_init 4 (fun _ => (0, 0)) (0, 0) 0%N 0 0) ex_tl in
  flat_map req1 t = [(5, 14%N, 2); (6, 3%N, 0)] /\ flat_map addr1 t = [14; 2; 6; 3]%N /\
  flat_map rsp1 t = [(5, false, 100); (5, false, 101); (5, true, 102); (6, true, 103)].
Proof. split; [repeat constructor|]. split; [repeat (constructor; [split; [reflexivity|cbn; repeat constructor]|]); constructor|]. repeat split. Qed.
Example C66_example_w :
  let t := trace (tl_step 4 2 4%N 4 true) (tl_init 4 (fun _ => (0, 0)) (0, 0) 0%N 0 0) ex_tl in
  flat_map beat1 t = [100; 101; 102; 103] /\ flat_map rsp1 t = [(5, true, 102); (6, true, 103)].
Proof. repeat split. Qed.
