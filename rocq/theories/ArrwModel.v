(** Model of hwtLib/structManipulators/arrayBuff_writer.py [ArrayBuff_writer]. *)
From Verif Require Import Base FifoModel.

Section Arrw.
  Context {A : Type}.
  (** ADDR_WIDTH, DATA_WIDTH, BUFF_DEPTH, TIMEOUT, ITEMS, arrayBuff_writer.py:42-48. The width of an item is not modelled: data are abstract and one item takes one word (:199). *)
  Variables AW DW BD TIMEOUT ITEMS : nat.
  (** MAX_LEN, arrayBuff_writer.py:44; width of req.len, datapump/intf.py:38 *)
  Definition max_len : nat := 15.
  Definition len_w : nat := log2ceil (max_len + 1).
  (** ALIGN_BITS, arrayBuff_writer.py:84 *)
  Definition align_bits : nat := log2ceil (DW / 8 - 1).
  (** width of offset and remaining, arrayBuff_writer.py:105-108 *)
  Definition off_w : nat := log2ceil (ITEMS + 1).
  (** the assertion about widths of req.len and buff.size, arrayBuff_writer.py:121-123 *)
  Definition elaborates : bool := len_w =? hs_size_w BD - 1.

  (** stT, arrayBuff_writer.py:20 *)
  Inductive aw_fsm := WaitInput | WaitTx | WaitAck.
  (** registers: buff, FSM, sizeOfItems (:94), baseAddrReg (:98), offset, remaining (:106-108), lastWordCntr (:143), timeoutCntr (:148), uploadedCntr (:74) *)
  Record aw_st := mk_aw { a_buf : hsf_st A; a_fsm : aw_fsm; a_size : nat; a_base : nat; a_off : nat; a_rem : nat; a_lw : nat; a_tmo : nat; a_up : nat }.
  (** items.vld, items.data; req.rd; w.ready; ack.vld, ack.data == ID; baseAddr.dout.vld, baseAddr.dout.data *)
  Record aw_in := mk_ai { i_iv : bool; i_item : A; i_reqrd : bool; i_wrdy : bool; i_ackv : bool; i_ackid : bool; i_bv : bool; i_bd : nat }.
  (** items.rd; req.vld, req.addr, req.len; w.valid, w.data, w.last; ack.rd; uploaded; buff_remain *)
  Record aw_out := mk_ao { o_ird : bool; o_reqv : bool; o_addr : nat; o_len : nat; o_wv : bool; o_wd : A; o_wlast : bool; o_ackrd : bool; o_uploaded : nat; o_remain : nat }.

  (** reset values; sizeOfItems and baseAddrReg have none *)
  Definition aw_init (m0 : nat -> A) (d0 : A) (size0 base0 : nat) : aw_st :=
    mk_aw (hsf_init BD [] m0 d0) WaitInput size0 base0 0 ITEMS 0 (TIMEOUT - 1) 0.

  Definition is_input (f : aw_fsm) : bool := match f with WaitInput => true | _ => false end.
  Definition is_tx (f : aw_fsm) : bool := match f with WaitTx => true | _ => false end.
  Definition is_ack (f : aw_fsm) : bool := match f with WaitAck => true | _ => false end.

  (** hwImpl, arrayBuff_writer.py:83-206 *)
  Definition aw_step (s : aw_st) (i : aw_in) : aw_st * aw_out :=
    let '(buf', bo) := hsf_step BD (a_buf s) (mk_hin (i_iv i) (i_item i) (i_wrdy i && is_tx (a_fsm s))) in   (* :197, 201-204 *)
    let size := h_size bo in
    let dvld := h_vld bo in
    let rem_len := wdec off_w (a_rem s) in
    let end_block := rem_len <? wrap off_w size in                                       (* endOfLenBlock, :125-133 *)
    let size_tmp := if end_block then wrap (hs_size_w BD) (a_rem s) else size in         (* sizeTmp, :135-141 *)
    let len := if end_block then wrap len_w rem_len else wrap len_w (wdec (hs_size_w BD) size) in
    let w_last := a_lw s =? 1 in                                                         (* :144 *)
    let w_ack := i_wrdy i && dvld in
    let begin_req := (size =? BD) || (a_tmo s =? 0) in                                   (* :151 *)
    let req_ack := i_ackv i && i_ackid i in
    let fsm' := match a_fsm s with                                                       (* :154-161 *)
                | WaitInput => if begin_req && i_reqrd i then WaitTx else WaitInput
                | WaitTx => if w_last && w_ack then WaitAck else WaitTx
                | WaitAck => if req_ack then WaitInput else WaitAck
                end in
    let start := is_input (a_fsm s) && begin_req && i_reqrd i in
    let off' := if start then (if end_block then 0 else wrap off_w (a_off s + wrap off_w size)) else a_off s in         (* :163-177 *)
    let rem' := if start then (if end_block then ITEMS else wrap off_w (a_rem s + 2 ^ off_w - wrap off_w size)) else a_rem s in
    let size' := if start then size_tmp else a_size s in
    let tmo' := if is_input (a_fsm s) && begin_req then (if i_reqrd i then TIMEOUT - 1 else a_tmo s)
                else if dvld && is_input (a_fsm s) && negb (a_tmo s =? 0) then a_tmo s - 1 else a_tmo s in              (* :178-182 *)
    let up' := if is_ack (a_fsm s) && req_ack then wrap 16 (a_up s + a_size s) else a_up s in                           (* uploadedCntrHandler, :73-80 *)
    let lw' := if start then size_tmp else if negb (a_lw s =? 0) && w_ack then a_lw s - 1 else a_lw s in                (* :190-195 *)
    let base' := if i_bv i then wrap (AW - align_bits) (i_bd i / 2 ^ align_bits) else a_base s in                       (* :99-101 *)
    (mk_aw buf' fsm' size' base' off' rem' lw' tmo' up',
     mk_ao (h_rd bo) (is_input (a_fsm s) && begin_req)
           (wrap (AW - align_bits) (a_base s + a_off s) * 2 ^ align_bits) len            (* :111-117, 135-141 *)
           (dvld && is_tx (a_fsm s)) (h_data bo) w_last
           (is_ack (a_fsm s)) (a_up s) (wrap 16 (a_rem s))).
End Arrw.
Arguments aw_st : clear implicits.
Arguments aw_in : clear implicits.
Arguments aw_out : clear implicits.
