(** Properties C08-C09. *)
From Verif Require Import Base StreamNodeModel StreamNodeSpec StreamNodeProofs.

(** C08: a channel of a StreamNode without extraConds transfers exactly when the node is enabled,
    the channel is not skipped and every not skipped master is valid and every not skipped slave
    is ready: all the not skipped channels transfer or none. *)
Theorem C08_stream_node_all_or_nothing :
  forall (n : node) (en : bool), no_extra n ->
  (forall i c, nth_error (masters n) i = Some c ->
     (master_transfers n en i c = true <-> en = true /\ skipped c = false /\ everyone_waits n)) /\
  (forall j c, nth_error (slaves n) j = Some c ->
     (slave_transfers n en j c = true <-> en = true /\ skipped c = false /\ everyone_waits n)).
Proof. exact c08. Qed.
Print Assumptions C08_stream_node_all_or_nothing.

Example C08_case :
  let n := mk_node [ch true; chs false true] [ch true; ch true] in
  no_extra n /\ master_transfers n true 0 (ch true) = true /\
  master_transfers n true 1 (chs false true) = false /\ slave_transfers n true 1 (ch true) = true /\
  slave_transfers (mk_node [ch true; ch true] [ch true; ch false]) true 0 (ch true) = false.
Proof. repeat split. intros c [<-|[<-|[<-|[<-|[]]]]]; reflexivity. Qed.

(** C08: the ready (valid) the node drives to a master (slave) does not depend on the valid
    (ready) of that very channel: no combinational loop through one channel. *)
Theorem C08_stream_node_master_ready_independent :
  forall ms1 ms2 ss c v en,
  rd_of_master (mk_node (ms1 ++ c :: ms2) ss) en (length ms1) c =
  rd_of_master (mk_node (ms1 ++ set_sig v c :: ms2) ss) en (length ms1) (set_sig v c).
Proof. exact c08_master_no_self. Qed.
Print Assumptions C08_stream_node_master_ready_independent.

Theorem C08_stream_node_slave_valid_independent :
  forall ms ss1 ss2 c v en,
  vld_of_slave (mk_node ms (ss1 ++ c :: ss2)) en (length ss1) c =
  vld_of_slave (mk_node ms (ss1 ++ set_sig v c :: ss2)) en (length ss1) (set_sig v c).
Proof. exact c08_slave_no_self. Qed.
Print Assumptions C08_stream_node_slave_valid_independent.

(** C08: ack() is high exactly when the transfer happens (with enSig high). *)
Theorem C08_stream_node_ack :
  forall (n : node) (en : bool), no_extra n ->
  (forall c, In c (masters n ++ slaves n) -> sig c <> None) ->
  (forall i c, nth_error (masters n) i = Some c ->
     master_transfers n en i c = en && negb (skipped c) && node_ack n) /\
  (forall j c, nth_error (slaves n) j = Some c ->
     slave_transfers n en j c = en && negb (skipped c) && node_ack n).
Proof. exact c08_ack. Qed.
Print Assumptions C08_stream_node_ack.

Example C08_ack_case :
  let n := mk_node [ch true; chs false true] [ch true] in
  (forall c, In c (masters n ++ slaves n) -> sig c <> None) /\ node_ack n = true.
Proof. split; [intros c [<-|[<-|[<-|[]]]]; discriminate|reflexivity]. Qed.

(** C09 (finding): extraConds of one channel do not block the other channels: a slave gets valid
    (and takes the word) although the master is not acknowledged. *)
Theorem C09_extra_cond_blocks_all_refuted :
  exists n i c j d, nth_error (masters n) i = Some c /\ nth_error (slaves n) j = Some d /\
    blocked c = true /\ skipped c = false /\
    master_transfers n true i c = false /\ slave_transfers n true j d = true.
Proof. exact c09_bad. Qed.
Print Assumptions C09_extra_cond_blocks_all_refuted.

(** C09 (part): the channel with an unsatisfied extraCond does not transfer, and the transfer is
    all-or-nothing if the same condition is given for every channel. *)
Theorem C09_extra_cond_blocks_its_channel_partial :
  forall (n : node) (en : bool),
  (forall i c, nth_error (masters n) i = Some c -> blocked c = true -> master_transfers n en i c = false) /\
  (forall j c, nth_error (slaves n) j = Some c -> blocked c = true -> slave_transfers n en j c = false).
Proof. exact c09_blocked. Qed.
Print Assumptions C09_extra_cond_blocks_its_channel_partial.

Theorem C09_common_extra_cond_partial :
  forall (n : node) (en b : bool),
  (forall c, In c (masters n ++ slaves n) -> blocked c = b) ->
  (forall i c, nth_error (masters n) i = Some c ->
     (master_transfers n en i c = true <-> en = true /\ skipped c = false /\ b = false /\ everyone_waits n)) /\
  (forall j c, nth_error (slaves n) j = Some c ->
     (slave_transfers n en j c = true <-> en = true /\ skipped c = false /\ b = false /\ everyone_waits n)).
Proof. exact c09_same. Qed.
Print Assumptions C09_common_extra_cond_partial.

Example C09_case :
  let n := mk_node [che true false; che true false] [che true false] in
  (forall c, In c (masters n ++ slaves n) -> blocked c = true) /\
  slave_transfers n true 0 (che true false) = false /\
  slave_transfers (mk_node [che true true] [che true true]) true 0 (che true true) = true.
Proof. repeat split. intros c [<-|[<-|[<-|[]]]]; reflexivity. Qed.
