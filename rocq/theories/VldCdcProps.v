(** C64: VldSyncedCdc. *)
From Verif Require Import Base VldCdcModel VldCdcSpec VldCdcProofs.

(** With alternating clock edges and data which stay at the input for two more cycles, the consumer sees the words sent, in
    order, each once; all of them after three cycles.
    Missing: all other clocks which are not slower, and data which change, see below. *)
Theorem C64_vld_cdc_partial (A : Type) (a0 b0 : A) (l : list (bool * A)) :
  held l -> exists rest, length rest <= 3 /\ vs_sent (alternate l) = vs_got (outs vs_step (vs_init a0 b0) (alternate l)) ++ rest.
Proof. exact (alt_words a0 b0 l). Qed.
Print Assumptions C64_vld_cdc_partial.
Theorem C64_vld_cdc_drain_partial (A : Type) (a0 b0 x : A) (l : list (bool * A)) : held (l ++ repeat (false, x) 3) ->
  vs_got (outs vs_step (vs_init a0 b0) (alternate (l ++ repeat (false, x) 3))) = vs_sent (alternate l).
Proof. exact (alt_drain a0 b0 l x). Qed.
Print Assumptions C64_vld_cdc_drain_partial.
Example C64_example : held (ex_vs3 ++ repeat (false, 0) 3) /\ vs_sent (alternate ex_vs3) = [1; 2].
Proof. exact ex_vs3_held. Qed.
(** With dataOut_clk not slower than dataIn_clk words which were never sent are seen. *)
Theorem C64_vld_cdc_refuted : exists es : list (vs_ev nat), not_slower es false /\
  ~ exists rest, vs_sent es = vs_got (outs vs_step (vs_init 0 0) es) ++ rest.
Proof. exact vs_refuted. Qed.
Print Assumptions C64_vld_cdc_refuted.
(** wrong data with equal clocks; a word seen twice with a faster dataOut_clk *)
Example C64_wrong : not_slower ex_vs1 false /\ not_slower ex_vs2 false /\
  vs_sent ex_vs1 = [1] /\ vs_got (outs vs_step (vs_init 0 0) ex_vs1) = [3] /\
  vs_sent ex_vs2 = [1] /\ vs_got (outs vs_step (vs_init 0 0) ex_vs2) = [1; 1].
Proof. exact vs_bad. Qed.
