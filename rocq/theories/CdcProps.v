From Verif Require Import Base BaseFacts CdcModel CdcSpec CdcProofs.

(** C31: for every interleaving of the clocks, if the consumer is ready at every edge of its clock.  Missing: consumers
    which are not always ready, see [C31_cdc_refuted]. *)
Theorem C31_cdc_partial : forall (A : Type) (a b : A) (es : list (hc_ev A)), always_ready es ->
  let t := trace hc_step (hc_init a b) es in
  exists inside, cdc_taken t = cdc_given t ++ inside /\ length inside <= 1.
Proof. exact c31_ready. Qed.
Print Assumptions C31_cdc_partial.
Example C31_case : always_ready ex31 /\
  let t := trace hc_step (hc_init 0 0) ex31 in cdc_taken t = [7; 9; 10] /\ cdc_given t = [7; 9].
Proof. split; [exact ex31_ready|vm_compute; split; reflexivity]. Qed.

(** A word is delivered and dataIn is ready again after an edge of dataIn_clk, five of dataOut_clk and three of dataIn_clk. *)
Theorem C31_cdc_live_partial : forall (A : Type) (a b : A) (es e1 e2 e3 : list (hc_ev A)) (e : hc_ev A),
  always_ready (es ++ e1 ++ e2 ++ e3) -> 1 <= in_edges e1 -> 5 <= out_edges e2 -> 3 <= in_edges e3 ->
  exists p q, e1 ++ e2 ++ e3 = p ++ q /\
    ho_rd (snd (hc_step (final hc_step (hc_init a b) (es ++ p)) e)) = true /\
    cdc_taken (trace hc_step (hc_init a b) (es ++ p)) = cdc_given (trace hc_step (hc_init a b) (es ++ p)).
Proof. exact c31_live. Qed.
Print Assumptions C31_cdc_live_partial.
Example C31_live_case : always_ready ([] ++ [ei 7; en] ++ repeat (eo true) 5 ++ [en; en; en]) /\
  1 <= in_edges [ei 7; en] /\ 5 <= out_edges (repeat (eo true) 5) /\ 3 <= in_edges [en; en; en].
Proof. split; [exact ex31_live_ready|vm_compute; lia]. Qed.

(** With back-pressure the accepted word 7 is never delivered, the reset content of the data register is, and the
    component is idle again. *)
Theorem C31_cdc_refuted : exists (es : list (hc_ev nat)),
  let t := trace hc_step (hc_init 0 0) es in
  cdc_taken t = [7] /\ cdc_given t = [0] /\
  forall n, cdc_given (trace hc_step (hc_init 0 0) (es ++ repeat (eo true) n)) = [0] /\
            forall e, ho_rd (snd (hc_step (final hc_step (hc_init 0 0) es) e)) = true.
Proof. exact c31_bad. Qed.
Print Assumptions C31_cdc_refuted.
