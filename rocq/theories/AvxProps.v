(** C128, C129, C130: AvalonMm_to_Axi4. *)
From Verif Require Import Base AmbModel AmbSpec AvxModel AvxSpec AvxProofs AvxCases.

(** The accepted requests, but for at most the last one, have been turned exactly into the axi transactions which they mean, in order:
    one ar for a read, one aw for a burst of writes and one w for each of its words with last on the final one, len = burstCount - 1. *)
Theorem C128_transactions : forall (AD D M : Type) BURST CW (m1 : nat -> rq (pay AD D M)) x1 m2 x2 m3 x3 (is : list (avx_in AD D M)),
  Forall (legal CW) is -> let t := trace (avx_step BURST CW) (avx_init m1 x1 m2 x2 m3 x3) is in
  exists done inside, taken t = done ++ inside /\ length inside <= 1 /\ evs t = axi_of BURST 0 done.
Proof. exact @avx_trans. Qed.
Print Assumptions C128_transactions.
Example C128_witness : let t := trace (avx_step true 3) xs0 mixx in Forall (legal 3) mixx /\
  taken t = [(true, false, (16, 2, 0, 0)); (false, true, (32, 3, 1, 15)); (false, true, (0, 1, 2, 15)); (false, true, (0, 1, 3, 7)); (false, true, (64, 1, 4, 3))] /\
  evs t = [AR 16 1; AW 32 2; W 1 15 false; W 2 15 false; W 3 7 true; AW 64 0; W 4 3 true].
Proof.
  cbv zeta. split; [repeat constructor; cbn; try lia; intros [? ?]; discriminate|]. split; vm_compute; reflexivity.
Qed.

(** aw.valid and w.valid wait for the ready: a slave which raises ready only after valid is never offered the write, for any length of the run. *)
Theorem C129_waits_for_ready_refuted : exists is : list xin, Forall (legal 3) is /\ taken (trace (avx_step true 3) xs0 is) = [(false, true, (32, 1, 1, 15))] /\
  forall js, Forall (fun j => x_aw j = false /\ x_w j = false) js ->
  Forall (fun c => y_awv (snd c) = false /\ y_wv (snd c) = false /\ y_wait (snd c) = true) (trace (avx_step true 3) (final (avx_step true 3) xs0 is) js).
Proof.
  exists [req_in (false, true, (32, 1, 1, 15)) false false false]. split; [repeat constructor; cbn; try lia; intros [? ?]; discriminate|].
  split; [vm_compute; reflexivity|]. intros js H. rewrite BaseFacts.final_cons. exact (avx_stuck0 true 3 (fun _ => xnop) xnop (fun _ => 0) 0 (fun _ => 0) 0 (req_in (false, true, (32, 1, 1, 15)) false false false) js (32, 1, 1, 15) eq_refl H).
Qed.
Print Assumptions C129_waits_for_ready_refuted.
(** aw.valid is withdrawn without an aw.ready when w.ready goes low. *)
Theorem C129_withdrawn_refuted : exists (is : list xin) (i j : xin), Forall (legal 3) (is ++ [i; j]) /\
  let s := final (avx_step true 3) xs0 is in
  y_awv (snd (avx_step true 3 s i)) = true /\ x_aw i = false /\ y_awv (snd (avx_step true 3 (fst (avx_step true 3 s i)) j)) = false.
Proof.
  exists [req_in (false, true, (32, 1, 1, 15)) false false false], (req_in xnop true false true), (req_in xnop true false false).
  split; [repeat constructor; cbn; try lia; intros [? ?]; discriminate|]. vm_compute. auto.
Qed.
Print Assumptions C129_withdrawn_refuted.
(** When all three ready are high the master does not wait and everything accepted before is passed on. *)
Theorem C129_progress_partial : forall (AD D M : Type) BURST CW (m1 : nat -> rq (pay AD D M)) x1 m2 x2 m3 x3 (is : list (avx_in AD D M)) i,
  Forall (legal CW) (is ++ [i]) -> let s0 := avx_init m1 x1 m2 x2 m3 x3 in let t := trace (avx_step BURST CW) s0 (is ++ [i]) in
  x_ar i = true -> x_aw i = true -> x_w i = true ->
  y_wait (snd (avx_step BURST CW (final (avx_step BURST CW) s0 is) i)) = false /\ evs t = axi_of BURST 0 (taken (trace (avx_step BURST CW) s0 is)).
Proof. exact @avx_progress. Qed.
Print Assumptions C129_progress_partial.

(** The resp of read data is not passed: a read which fails looks to the master as one which succeeds. *)
Theorem C130_read_error_refuted : exists is is' : list xin,
  map x_rresp is = [2; 0; 0; 0] /\ map x_rresp is' = [0; 0; 0; 0] /\ map x_rv is = [true; false; false; false] /\
  outs (avx_step true 3) xs0 is = outs (avx_step true 3) xs0 is'.
Proof. exists (ansx 2 0), (ansx 0 0). vm_compute. auto. Qed.
Print Assumptions C130_read_error_refuted.
(** Each word of read data and each write response reaches the master after exactly one cycle, the response with its kind, and axi never has to wait. *)
Theorem C130_answers_partial : forall (AD D M : Type) BURST CW (m1 : nat -> rq (pay AD D M)) x1 m2 x2 m3 x3 (is : list (avx_in AD D M)),
  Forall (fun i => x_bresp i < 4) is -> let t := trace (avx_step BURST CW) (avx_init m1 x1 m2 x2 m3 x3) is in
  delayed 1 (map r_axi t) (map r_avl t) /\ delayed 1 (map b_axi t) (map b_avl t) /\ Forall (fun c => y_rr (snd c) = true /\ y_br (snd c) = true) t.
Proof. exact @avx_answers. Qed.
Print Assumptions C130_answers_partial.
Example C130_witness : let t := trace (avx_step true 3) xs0 (ansx 0 3) in
  Forall (fun i => x_bresp i < 4) (ansx 0 3) /\ map r_avl t = [None; Some 7; None; None] /\ map b_avl t = [None; None; Some 3; None].
Proof. split; [repeat constructor; cbn; lia|]. vm_compute. auto. Qed.
