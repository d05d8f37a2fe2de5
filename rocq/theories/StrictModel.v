(** Model of hwtLib/amba/datapump/interconnect/rStricOrder.py [RStrictOrderInterconnect] and wStrictOrder.py [WStrictOrderInterconnect]
    with the request handler of hwtLib/amba/axi_comp/interconnect/base.py [AxiInterconnectBase.reqHandler]. *)
From Verif Require Import Base FifoModel JoinSplitModel OneHotModel.

Section Strict.
  (** a request; a word of the data stream without last *)
  Context {Q W : Type}.
  (** DRIVER_CNT, MAX_TRANS_OVERLAP; [x] is the unknown value of a mux without a selected input *)
  Variables (n DEPTH : nat) (x : Q) (xw : W).

  (** reqHandler, interconnect/base.py:70-83: HsJoinFairShare of the drivers' requests (join_fair), StreamNode([req], [dpReq, orderFifoIn])
      whose syncs are the conjunctions below; [frd] is the ready of the order FIFO. Result: the join, dpReq.vld, orderFifoIn.vld, .data *)
  Definition req_handler (prio : list bool) (reqs : list (bool * Q)) (dp_rd frd : bool) : (list bool * join_out Q) * bool * bool * nat :=
    let j := join_fair x prio (mk_jin reqs (dp_rd && frd)) in
    let v := j_vld (snd j) in
    (j, v && frd, v && dp_rd, match onehot_to_bin (j_sel (snd j)) with Some k => k | None => 0 end).

  (** ** RStrictOrderInterconnect: the priority register of the join and the FIFO orderInfoFifo *)
  Record rs_st := mk_rs { rs_prio : list bool; rs_f : hsf_st nat }.
  (** drivers[].req vld and payload; rDatapump.req.rd; rDatapump.r valid, word, last; drivers[].r.ready *)
  Record rs_in := mk_rsi { ri_req : list (bool * Q); ri_dprd : bool; ri_v : bool; ri_w : W; ri_last : bool; ri_rdy : nat -> bool }.
  (** drivers[].req.rd; rDatapump.req vld and payload; rDatapump.r.ready; drivers[].r.valid (word and last are wires from rDatapump.r) *)
  Record rs_out := mk_rso { ro_rds : list bool; ro_vld : bool; ro_req : Q; ro_rdy : bool; ro_v : nat -> bool }.
  Definition rs_init (m0 : nat -> nat) (d0 : nat) : rs_st := mk_rs (prio_init n) (hsf_init DEPTH [] m0 d0).

  (** hwImpl, rStricOrder.py:48-80 *)
  Definition rs_step (s : rs_st) (i : rs_in) : rs_st * rs_out :=
    let frd := negb (f_wwait (hf (rs_f s))) in
    let ov := ovld (rs_f s) in
    let od := dreg (hf (rs_f s)) in
    let '(j, dpv, fv, fd) := req_handler (rs_prio s) (ri_req i) (ri_dprd i) frd in
    let sel_rdy := existsb (fun k => (od =? k) && ri_rdy i k) (seq 0 n) in
    (mk_rs (fst j) (fst (hsf_step DEPTH (rs_f s) (mk_hin fv fd (ri_v i && ri_last i && sel_rdy)))),
     mk_rso (j_rds (snd j)) dpv (j_data (snd j)) (ov && sel_rdy)
            (fun k => (k <? n) && (ri_v i && ov && (od =? k)))).

  (** ** WStrictOrderInterconnect: the priority register, orderInfoFifoW and orderInfoFifoAck *)
  Record ws_st := mk_ws { ws_prio : list bool; ws_f : hsf_st nat; ws_a : hsf_st nat }.
  (** drivers[].req; wDatapump.req.rd; drivers[].w valid, word, last; wDatapump.w.ready; wDatapump.ack.vld; drivers[].ack.rd *)
  Record ws_in := mk_wsi { wi_req : list (bool * Q); wi_dprd : bool; wi_w : nat -> bool * W * bool; wi_rdy : bool; wi_ack : bool; wi_ackrd : nat -> bool }.
  (** drivers[].req.rd; wDatapump.req; drivers[].w.ready; wDatapump.w valid, word, last; wDatapump.ack.rd; drivers[].ack.vld *)
  Record ws_out := mk_wso { wo_rds : list bool; wo_vld : bool; wo_req : Q; wo_rdy : nat -> bool; wo_w : bool * W * bool; wo_ackrd : bool; wo_ack : nat -> bool }.
  Definition ws_init (m0 m1 : nat -> nat) (d0 d1 : nat) : ws_st :=
    mk_ws (prio_init n) (hsf_init DEPTH [] m0 d0) (hsf_init DEPTH [] m1 d1).

  (** wHandler, wStrictOrder.py:50-84, ackHandler, wStrictOrder.py:98-113, hwImpl, wStrictOrder.py:115-121.
      [last] of a Switch without a matching case is unknown; there the valid is 0 *)
  Definition ws_step (s : ws_st) (i : ws_in) : ws_st * ws_out :=
    let frd := negb (f_wwait (hf (ws_f s))) in
    let ov := ovld (ws_f s) in
    let od := dreg (hf (ws_f s)) in
    let ard := negb (f_wwait (hf (ws_a s))) in
    let av := ovld (ws_a s) in
    let ad := dreg (hf (ws_a s)) in
    let '(j, dpv, fv, fd) := req_handler (ws_prio s) (wi_req i) (wi_dprd i) frd in
    let sel_vld := existsb (fun k => (od =? k) && fst (fst (wi_w i k))) (seq 0 n) in
    let sel_last := existsb (fun k => (od =? k) && snd (wi_w i k)) (seq 0 n) in
    let sel_ack := existsb (fun k => (ad =? k) && wi_ackrd i k) (seq 0 n) in
    (mk_ws (fst j)
           (fst (hsf_step DEPTH (ws_f s) (mk_hin fv fd (sel_vld && sel_last && wi_rdy i && ard))))
           (fst (hsf_step DEPTH (ws_a s) (mk_hin (sel_vld && sel_last && wi_rdy i && ov) od (wi_ack i && sel_ack)))),
     mk_wso (j_rds (snd j)) dpv (j_data (snd j))
            (fun k => (k <? n) && ((od =? k) && wi_rdy i && ov && ard))
            (sel_vld && ov && ard, if od <? n then snd (fst (wi_w i od)) else xw, if od <? n then snd (wi_w i od) else false)
            (av && sel_ack)
            (fun k => (k <? n) && (wi_ack i && av && (ad =? k)))).
End Strict.
Arguments rs_in : clear implicits. Arguments rs_out : clear implicits.
Arguments ws_in : clear implicits. Arguments ws_out : clear implicits.
