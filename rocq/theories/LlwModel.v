(** Model of hwtLib/structManipulators/cLinkedListWriter.py [CLinkedListWriter]. *)
From Verif Require Import Base FifoModel.

Section Llw.
  Context {A : Type}.
  (** BUFFER_CAPACITY, ITEMS_IN_BLOCK, ADDR_WIDTH, DATA_WIDTH, PTR_WIDTH, TIMEOUT, cLinkedListWriter.py:48-63. The ID is a constant on all the requests, the inputs tell whether the id of the answer is this one. *)
  Variables CAP ITEMS AW DW PW TIMEOUT : nat.
  (** ALIGN_BITS, :97; BURST_LEN, :269; width of req.len: MAX_LEN of :77, datapump/intf.py:38; dataCntr_t, :276; inBlock_t, :315; width of indexes, :134; timeoutCntr, :167 *)
  Definition w_al : nat := log2ceil (DW / 8).
  Definition wburst : nat := CAP / 2.
  Definition wlen_w : nat := log2ceil (wburst + 1).
  Definition wrem_w : nat := log2ceil (ITEMS + 1).
  Definition widx_w : nat := AW - w_al.
  (** the assertion, :78 *)
  Definition w_elaborates : bool := CAP <=? ITEMS.

  (** nextBaseFsm_t, :137-141; itemUploadingFsm_t, :287-292 *)
  Inductive nb_fsm := Uninit | Required | Pending | Prepared.
  Inductive up_fsm := Idle | ReqPending | Prepare | Send | WaitForAck.
  (** registers: dataFifo; baseAddrLogic: its FSM, baseIndex_backup, nextBaseIndex (:135-151); itemUploadLogic: its FSM, baseIndex, dataCntr, reqLen_backup, timeoutCntr, inBlockRemain, rdPtr, wrPtr (:182-183, 275-316) *)
  Record w_st := mk_w { w_buf : hsf_st A; w_nb : nb_fsm; w_bb : nat; w_next : nat; w_fsm : up_fsm; w_base : nat; w_cnt : nat; w_len : nat; w_tmo : nat; w_rem : nat; w_rp : nat; w_wp : nat }.
  (** dataIn: vld, data; wDatapump: req.rd, w.ready, ack.vld, ack.data == ID; rDatapump: req.rd, r.valid, r.id == ID, r.data; baseAddr, rdPtr, wrPtr: dout.data if dout.vld *)
  Record w_in := mk_wi { e_v : bool; e_d : A; e_qrd : bool; e_wr : bool; e_av : bool; e_aid : bool; e_rqrd : bool; e_rv : bool; e_rid : bool; e_rd : nat; x_base : option nat; x_rd : option nat; x_wr : option nat }.
  (** dataIn.rd; wDatapump: req vld, addr, len; w valid, data, last; ack.rd; rDatapump: req vld, addr (its len is 0 and r.ready is 1); baseAddr.din, rdPtr.din, wrPtr.din *)
  Record w_out := mk_wo { f_r : bool; f_qv : bool; f_qa : nat; f_ql : nat; f_wv : bool; f_wd : A; f_wl : bool; f_ar : bool; f_rqv : bool; f_rqa : nat; f_base : nat; f_rp : nat; f_wp : nat }.

  (** reset; indexes have no reset value *)
  Definition w_init (m0 : nat -> A) (d0 : A) (bb0 next0 base0 : nat) : w_st :=
    mk_w (hsf_init CAP [] m0 d0) Uninit bb0 next0 Idle base0 0 0 TIMEOUT ITEMS 0 (2 ^ PW - 1).

  (** reqLen of wReqDriver, :202-223 *)
  Definition w_reqlen (by_ptrs rem : nat) : nat :=
    let rem_p := wrap PW rem in
    let cons := if rem_p <? by_ptrs then rem_p else by_ptrs in
    if wburst - 1 <? cons then wburst - 1 else wrap wlen_w cons.
  Definition is_idle (f : up_fsm) : bool := match f with Idle => true | _ => false end.
  Definition is_req (f : up_fsm) : bool := match f with ReqPending => true | _ => false end.
  Definition is_prep (f : up_fsm) : bool := match f with Prepare => true | _ => false end.
  Definition is_send (f : up_fsm) : bool := match f with Send => true | _ => false end.
  Definition is_wack (f : up_fsm) : bool := match f with WaitForAck => true | _ => false end.
  Definition is_required (f : nb_fsm) : bool := match f with Required => true | _ => false end.
  Definition is_prepared (f : nb_fsm) : bool := match f with Prepared => true | _ => false end.
  Definition to_index (a : nat) : nat := wrap widx_w (a / 2 ^ w_al).      (* addrToIndex, :99-100; the address has ADDR_WIDTH bits *)

  (** hwImpl, :334-341 *)
  Definition w_step (s : w_st) (i : w_in) : w_st * w_out :=
    let f := w_fsm s in
    let '(buf', bo) := hsf_step CAP (w_buf s) (mk_hin (e_v i) (e_d i) (e_wr i && is_send f)) in                          (* :257, 261 *)
    let len1 := winc wrem_w (wrap wrem_w (w_len s)) in
    let trans := (w_rem s <=? len1) && is_prep f in                                                                      (* nextBlockTransition, :239-240, 262 *)
    let got_next := e_rv i && e_rid i in                                                                                 (* isNextBaseAddr, :142 *)
    let nb' := match w_nb s with                                                                                         (* :143-151 *)
               | Uninit => match x_base i with Some _ => Required | None => Uninit end
               | Required => if e_rqrd i then Pending else Required
               | Pending => if got_next then Prepared else Pending
               | Prepared => if trans then Required else Prepared
               end in
    let bb' := match x_base i with Some b => to_index b | None => if trans then w_next s else w_bb s end in              (* :153-157 *)
    let next' := if got_next then to_index (e_rd i) else w_next s in                                                     (* :160-162 *)
    let got_ack := e_av i && e_aid i in                                                                                  (* gotWriteAck, :280 *)
    let space := negb (winc PW (w_wp s) =? w_rp s) in                                                                    (* queueHasSpace, :199 *)
    let by_ptrs := wrap PW (w_rp s + 2 * 2 ^ PW - w_wp s - 2) in                                                         (* lenByPtrs, :195-196 *)
    let tmo := w_tmo s =? 0 in                                                                                           (* timeoutHandler, :165-174 *)
    let tmo' := if negb (is_idle f) then TIMEOUT else if negb tmo && (negb (h_size bo =? 0) && space) then w_tmo s - 1 else w_tmo s in
    let f' := match f with                                                                                               (* :294-309 *)
              | Idle => if tmo || ((wburst - 1 <? h_size bo) && space) then ReqPending else Idle
              | ReqPending => if e_qrd i then Prepare else ReqPending
              | Prepare => Send
              | Send => if (negb trans || is_prepared (w_nb s)) && (w_cnt s =? 0) then WaitForAck else Send
              | WaitForAck => if got_ack then Idle else WaitForAck
              end in
    let len := w_reqlen by_ptrs (w_rem s) in
    let len' := if is_req f && e_qrd i then len else w_len s in                                                          (* :321-323 *)
    let cnt' := if is_prep f then wrap wlen_w (w_len s)                                                                  (* :241-252 *)
                else if is_send f && (h_vld bo && e_wr i) then wdec wlen_w (w_cnt s) else w_cnt s in
    let rem' := if is_prep f then (if trans then ITEMS else wrap wrem_w (w_rem s + 2 ^ wrem_w - len1)) else w_rem s in
    let base' := match x_base i with                                                                                     (* :330-336 *)
                 | Some b => to_index b
                 | None => if is_prep f then wrap widx_w (wrap widx_w (w_base s + wrap widx_w (w_len s)) + 1) else if trans then w_next s else w_base s
                 end in
    let wp' := match x_wr i with Some v => wrap PW v | None => if got_ack then wrap PW (w_wp s + wrap PW (winc PW (wrap PW (w_len s)))) else w_wp s end in   (* :185-189, 281-283 *)
    let rp' := match x_rd i with Some v => wrap PW v | None => w_rp s end in                                             (* :191-193 *)
    (mk_w buf' nb' bb' next' f' base' cnt' len' tmo' rem' rp' wp',
     mk_wo (h_rd bo) (is_req f) (w_base s * 2 ^ w_al) len (h_vld bo && is_send f) (h_data bo) (w_cnt s =? 0) (is_wack f)
           (is_required (w_nb s)) (wrap widx_w (w_bb s + ITEMS) * 2 ^ w_al) (w_bb s * 2 ^ w_al) (w_rp s) (w_wp s)).
End Llw.
Arguments w_st : clear implicits.
Arguments w_in : clear implicits.
Arguments w_out : clear implicits.
