(** Transactions for the examples: endpoint 1 has both directions. *)
From Verif Require Import Base UefModel UefSpec.

Definition uc_has (e : nat) : bool := e <? 3.
(** header vld, err, pid; rx_data vld, last, err; ep_rx ready; ep_tx valid, last, stall; tx_cmd.ready *)
Definition uc (hv he : bool) (pid : nat) (dv dl de rrd tv tl ts rd : bool) : uf_in :=
  mk_ufi false false hv he pid 1 dv dl de rrd false tv tl ts rd false false.
Definition c_quiet := uc false false 0 false false false true false false false false.
Definition c_sent := uc false false 0 false false false true false false false true.
Definition c_tok (pid : nat) (rrd tv : bool) := uc true false pid false false false rrd tv false false true.
Definition c_rx (last err : bool) := uc false false 0 true last err true false false false true.
Definition c_tx (last : bool) := uc false false 0 false false false true true last false true.
Definition uc_in := TInData 1 (c_tok P_IN true true) [c_quiet; c_tx false; c_tx true] c_sent (Some (c_tok P_ACK true false)).
Definition uc_lost := TInData 1 (c_tok P_IN true true) [c_tx true] c_sent None.
Definition uc_out (setup : bool) (pid : nat) := TOut 1 setup Ready (c_tok (if setup then P_SETUP else P_OUT) true false) [c_quiet] (c_tok pid true false)
  [c_rx false false; c_quiet; c_rx true false] [c_quiet; c_sent].
Definition uc_err := TOut 1 false Ready (c_tok P_OUT true false) [] (c_tok P_DATA1 true false) [c_rx false false; c_rx true true] [].
Definition uc_full := TOut 1 false Nak (c_tok P_OUT false false) [] (c_tok P_DATA1 true false) [c_rx true false] [c_sent].
Definition uc_nak := TInHs 1 Nak (c_tok P_IN true false) [c_sent].
Definition uc_all := [uc_out true P_DATA0; uc_in; TPause [c_quiet]; uc_in; uc_err; uc_full; uc_out false P_DATA1; uc_nak; uc_in; TOther (c_tok 5 true false)].
(** a token with an error; a PING with place for data and without data to send; OUT while IN of the endpoint is stalled *)
Definition uc_bad := TBad (uc true true P_IN false false false true false false false true) [c_sent].
Definition uc_ping := TPing 1 Ready (c_tok P_PING true false) [c_sent].
Definition uc_outonly := TOut 1 false Ready (c_tok P_OUT true false) [] (c_tok P_DATA0 true false) [c_rx true false] [uc false false 0 false false false true true false true true].
