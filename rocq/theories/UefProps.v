(** C158 - the transactions of a USB device are answered as the standard requires. *)
From Verif Require Import Base UefModel UefSpec UefProofs UefCases.

(** guard [all_served]: no tokens with an error, no PING, data of the device are acknowledged, data of the host are not repeated, IN is not stalled during an
    OUT transaction *)
Theorem C158_answers_partial : forall (has_out has_in : nat -> bool) (p0 : option nat) (l : list tr),
  Forall (well_formed has_out has_in) l -> all_served tg0 l ->
  events (trace (uf_step has_out has_in) (uf_init p0) (flat_map cycles l)) = respond_all tg0 l.
Proof. exact (fun ho hi p0 l => served_init ho hi l p0). Qed.

(** a token with an error (wrong address or CRC) is answered by NAK *)
Theorem C158_bad_token_refuted : exists has_out has_in tok hs, well_formed has_out has_in (TBad tok hs) /\ respond_all tg0 [TBad tok hs] = [] /\
  events (trace (uf_step has_out has_in) (uf_init None) (cycles (TBad tok hs))) = [EvHs (Some P_NACK)].
Proof. exact (ex_intro _ uc_has (ex_intro _ uc_has bad_refuted)). Qed.
(** PING is answered by NAK although the endpoint can take data (data to send are tested instead) *)
Theorem C158_ping_refuted : exists has_out has_in e tok hs, well_formed has_out has_in (TPing e Ready tok hs) /\
  respond_all tg0 [TPing e Ready tok hs] = [EvHs (Some P_ACK)] /\
  events (trace (uf_step has_out has_in) (uf_init None) (cycles (TPing e Ready tok hs))) = [EvHs (Some P_NACK)].
Proof. exact (ex_intro _ uc_has (ex_intro _ uc_has ping_refuted)). Qed.
(** the number of the data packet changes although the host did not acknowledge it *)
Theorem C158_lost_in_refuted : exists has_out has_in x y, Forall (well_formed has_out has_in) [x; y] /\ (exists e tok b fin, x = TInData e tok b fin None) /\
  events (trace (uf_step has_out has_in) (uf_init None) (flat_map cycles [x; y])) <> respond_all tg0 [x; y].
Proof. exact (ex_intro _ uc_has (ex_intro _ uc_has lost_refuted)). Qed.
(** data repeated by the host (its handshake was lost) are not acknowledged *)
Theorem C158_repeated_refuted : exists has_out has_in e gap hdr body hs tok, let x := TOut e false Ready tok gap hdr body hs in well_formed has_out has_in x /\
  events (trace (uf_step has_out has_in) (uf_init None) (flat_map cycles [x; x])) <> respond_all tg0 [x; x].
Proof. exact (ex_intro _ uc_has (ex_intro _ uc_has repeat_refuted)). Qed.
(** data for an endpoint with a stalled (or missing) IN direction are taken and answered by STALL *)
Theorem C158_stalled_in_refuted : exists has_out has_in e tok gap hdr body hs, let x := TOut e false Ready tok gap hdr body hs in well_formed has_out has_in x /\
  events (trace (uf_step has_out has_in) (uf_init None) (cycles x)) <> fst (respond tg0 x).
Proof. exact (ex_intro _ uc_has (ex_intro _ uc_has outonly_refuted)). Qed.

Print Assumptions C158_answers_partial. Print Assumptions C158_bad_token_refuted. Print Assumptions C158_ping_refuted. Print Assumptions C158_lost_in_refuted.
Print Assumptions C158_repeated_refuted. Print Assumptions C158_stalled_in_refuted.

(** a control transfer, two IN transactions, data with an error, a full buffer, OUT, NAK and IN *)
Example C158_answers_case : Forall (well_formed uc_has uc_has) uc_all /\ all_served tg0 uc_all /\
  respond_all tg0 uc_all =
    [EvRx false false; EvRx true false; EvHs (Some P_ACK); EvTx (Some P_DATA1) false; EvTx (Some P_DATA1) true; EvTx (Some P_DATA0) false; EvTx (Some P_DATA0) true;
     EvRx false false; EvRx true true; EvHs (Some P_NACK); EvRx false false; EvRx true false; EvHs (Some P_ACK); EvHs (Some P_NACK);
     EvTx (Some P_DATA1) false; EvTx (Some P_DATA1) true].
Proof. split; [exact uc_all_wf|]. split; [exact uc_all_served|reflexivity]. Qed.
