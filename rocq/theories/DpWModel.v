(** Model of hwtLib/amba/datapump/w.py [Axi_wDatapump], all configurations (requests with and without an offset in the bus word). *)
From Verif Require Import Base FifoModel DpModel.

Section W.
  (** a byte of data *)
  Context {B : Type}.
  (** [xb]: an unknown byte; [xl]: unknown length *)
  Variables (c : dpcfg) (xl : nat) (xb : B).

  (** WFifoIntf, w.py:26-48: shift (in bytes; encodeShiftValue selects the option equal to the offset, base.py:97-104), drop_last_word *)
  Record winfo := mk_winfo { wf_shift : nat; wf_drop : bool }.
  (** a word of the driver.w or axi.w channel: bytes with strobes, LSB first *)
  Notation word := (list (B * bool)).
  (** address handler, writeInfoFifo, bInfoFifo, wErrFlag, wErrAlignFlag, isFirstData, prevData (word, waitingForShift), wWordCntr *)
  Record wp_st := mk_wp { u_ah : ah_st; u_wf : hsf_st winfo; u_bf : hsf_st bool; u_err : bool; u_aerr : bool;
    u_first : bool; u_prev : word; u_wait : bool; u_cnt : nat }.
  (** driver.req; axi.aw.ready; driver.w valid, word, last; axi.w.ready; axi.b valid, resp is OKAY; driver.ack.rd *)
  Record wp_in := mk_wpi { ui_vld : bool; ui_req : dreq; ui_awrdy : bool; ui_v : bool; ui_w : word; ui_last : bool; ui_rdy : bool;
    ui_bv : bool; ui_okay : bool; ui_ack : bool }.
  (** driver.req.rd; axi.aw valid, addr, len; driver.w.ready; axi.w valid, word, last; axi.b.ready; driver.ack.vld; errorWrite, errorAlignment *)
  Record wp_out := mk_wpo { uo_rd : bool; uo_awv : bool; uo_addr : nat; uo_len : nat; uo_rdy : bool;
    uo_v : bool; uo_w : word; uo_last : bool; uo_brdy : bool; uo_ack : bool; uo_err : bool; uo_aerr : bool }.
  Definition wp_init (a0 l0 : nat) (m0 : nat -> winfo) (d0 : winfo) (m1 : nat -> bool) (d1 : bool) (p0 : word) : wp_st :=
    mk_wp (ah_init a0 l0) (hsf_init (OVERLAP c) [] m0 d0) (hsf_init (OVERLAP c) [] m1 d1) false false true p0 false 0.

  (** storeTransInfo, w.py:106-116; nothing is stored if isAlwaysAligned *)
  Definition store_info (q : dreq) : winfo :=
    if always_aligned c then mk_winfo 0 false
    else mk_winfo (addr_offset c (q_addr q)) (negb (addr_is_aligned c (q_addr q)) && negb (crossing c (q_addr q) (q_rem q))).

  (** applyShift, w.py:166-195 *)
  Definition apply_shift (sh : nat) (wait first : bool) (prev cur : word) : word :=
    if sh =? 0 then cur
    else
      let r := WB c - sh in
      if wait then skipn r prev ++ repeat (xb, false) r
      else if first then map (fun bs => (fst bs, false)) (skipn r prev) ++ firstn r cur
      else skipn r prev ++ firstn r cur.

  (** hwImpl, w.py:249-268, axiWHandler, w.py:118-234, axiBHandler, w.py:236-246; the StreamNodes are expanded *)
  Definition wp_step (s : wp_st) (i : wp_in) : wp_st * wp_out :=
    let err := u_err s || u_aerr s in
    let ai := mk_ahi (ui_vld i) (ui_req i) (ui_awrdy i) (negb (f_wwait (hf (u_wf s)))) err in
    let '(ah', ao) := ah_step c xl (u_ah s) ai in
    let wv := ovld (u_wf s) in
    let info := dreg (hf (u_wf s)) in
    let brd := negb (f_wwait (hf (u_bf s))) in
    let al := always_aligned c in
    let wait := if al then false else u_wait s in
    let shifted := negb al && negb (wf_shift info =? 0) in
    let in_last := if shifted then wait || (ui_last i && wf_drop info) else ui_last i in
    (* aligned AXI-Lite: doSplit is the constant 1, w.py:133-136 *)
    let split0 := if al && (LW c =? 0) then true else in_last in
    let do_split := if use_split c then (u_cnt s =? len_max c) || split0 else split0 in
    (* StreamNode([wIn, wInfo], [w, bInfo], skipWhen={wIn: waitForShift}).ack() & ~err, w.py:152 *)
    let ack := (ui_v i || wait) && wv && ui_rdy i && brd && negb err in
    (* StreamNode([wInfo, wIn], [bInfo, w]).ack() & ~err, w.py:209 *)
    let ack_cnt := ui_v i && wv && ui_rdy i && brd && negb err in
    (mk_wp ah'
           (fst (hsf_step (OVERLAP c) (u_wf s) (mk_hin (ao_ivld ao) (store_info (ui_req i)) ((ui_v i || wait) && ui_rdy i && brd && do_split))))
           (fst (hsf_step (OVERLAP c) (u_bf s) (mk_hin ((ui_v i || wait) && wv && ui_rdy i && do_split) in_last (ui_bv i && ui_ack i))))
           (u_err s || (ui_bv i && negb (ui_okay i)))
           (if AL c =? 1 then false else u_aerr s || (ui_vld i && negb (addr_is_aligned c (q_addr (ui_req i)))))
           (if ack then (shifted && wait) || ((negb shifted || wf_drop info) && ui_last i) else u_first s)
           (if ack && negb wait then ui_w i else u_prev s)
           (if al then false else if ack then ui_v i && ui_last i && shifted && negb (u_wait s) && negb (wf_drop info) else u_wait s)
           (if use_split c && ack_cnt then (if do_split then 0 else u_cnt s + 1) else u_cnt s),
     mk_wpo (ao_rd ao) (ao_vld ao) (ao_addr ao) (ao_len ao)
            (wv && ui_rdy i && brd && negb wait)
            ((ui_v i || wait) && wv && brd && negb err)
            (if al then ui_w i else apply_shift (wf_shift info) wait (u_first s) (u_prev s) (ui_w i))
            do_split
            (ovld (u_bf s) && ui_ack i)
            (ui_bv i && ovld (u_bf s) && dreg (hf (u_bf s)))
            (u_err s) (u_aerr s)).
End W.
Arguments wp_in : clear implicits. Arguments wp_out : clear implicits.
