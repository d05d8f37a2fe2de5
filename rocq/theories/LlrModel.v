(** Model of hwtLib/structManipulators/cLinkedListReader.py [CLinkedListReader]. *)
From Verif Require Import Base FifoModel.

Section Llr.
  (** ID, ID_LAST, BUFFER_CAPACITY, ITEMS_IN_BLOCK, ADDR_WIDTH, DATA_WIDTH, PTR_WIDTH, cLinkedListReader.py:37-49 *)
  Variables ID ID_LAST CAP ITEMS AW DW PW : nat.
  (** ALIGN_BITS, :78-79, 90; BURST_LEN, :93; width of inBlockRemain, :98; width of req.len: MAX_BYTES of :60, datapump/intf.py:115, 38 *)
  Definition l_al : nat := log2ceil (DW / 8).
  Definition burst : nat := CAP / 2.
  Definition rem_w : nat := log2ceil (ITEMS + 1).
  Definition llen_w : nat := log2ceil (burst - 1 + 1).
  Definition idx_w : nat := AW - l_al.

  (** registers: dataFifo, downloadPending (:101), baseIndex (:103), inBlockRemain (:104), rdPtr, wrPtr (:108-109) *)
  Record l_st := mk_l { l_buf : hsf_st nat; l_pend : bool; l_base : nat; l_rem : nat; l_rd : nat; l_wr : nat }.
  (** rDatapump.r: valid, id, data, last; req.rd; dataOut.rd; baseAddr, rdPtr, wrPtr: dout.data if dout.vld *)
  Record l_in := mk_li { r_v : bool; r_id : nat; r_d : nat; r_l : bool; q_rd : bool; d_rd : bool; s_base : option nat; s_rd : option nat; s_wr : option nat }.
  (** rDatapump.r.ready; req: vld, id, addr, len; dataOut: vld, data; baseAddr.din, rdPtr.din, wrPtr.din, inBlockRemain *)
  Record l_out := mk_lo { r_r : bool; q_v : bool; q_id : nat; q_addr : nat; q_len : nat; d_v : bool; d_d : nat; g_base : nat; g_rd : nat; g_wr : nat; g_rem : nat }.

  (** reset; baseIndex has no reset value *)
  Definition l_init (m0 : nat -> nat) (d0 base0 : nat) : l_st := mk_l (hsf_init CAP [] m0 d0) false base0 ITEMS 0 0.

  (** the next request: id, len, next value of inBlockRemain; [by_ptrs] is sizeByPtrs and [rem] is inBlockRemain, :143-176 *)
  Definition l_req (by_ptrs rem : nat) : nat * nat * nat :=
    let rem_p := wrap PW rem in
    let cons := if rem_p <? by_ptrs then rem_p else by_ptrs in                                    (* constraingSpace, :143-149 *)
    let by_rem := rem <=? wrap rem_w by_ptrs in                                                   (* constrainedByInBlockRemain, :151-152 *)
    if burst <? cons then (ID, burst - 1, wrap rem_w (rem + 2 ^ rem_w - wrap rem_w burst))
    else if by_rem && (rem <? burst) then (ID_LAST, wrap llen_w cons, ITEMS)
    else (ID, wrap llen_w (wdec PW cons), wrap rem_w (rem + 2 ^ rem_w - wrap rem_w cons)).

  (** hwImpl, :81-212 *)
  Definition l_step (s : l_st) (i : l_in) : l_st * l_out :=
    let mine := (r_id i =? ID) || (negb (r_l i) && (r_id i =? ID_LAST)) in                        (* isMyData, :194-195 *)
    let '(buf', bo) := hsf_step CAP (l_buf s) (mk_hin (r_v i && mine && l_pend s) (r_d i) (d_rd i)) in   (* :122, 204-211 *)
    let space := h_size bo <? burst + 1 in                                                        (* bufferHasSpace, :96 *)
    let has := negb (l_wr s =? l_rd s) in                                                         (* hasSpace, :118 *)
    let do_req := space && has && negb (l_pend s) && q_rd i in                                    (* :120 *)
    let data_ack := r_v i && ((r_id i =? ID) || (r_id i =? ID_LAST)) && h_rd bo in                (* :128 *)
    let base' := match s_base i with                                                              (* :130-138 *)
                 | Some b => wrap idx_w (b / 2 ^ l_al)
                 | None => if data_ack && l_pend s then
                             (if r_l i && (r_id i =? ID_LAST) then wrap idx_w (r_d i / 2 ^ l_al) else winc idx_w (l_base s))
                           else l_base s
                 end in
    let by_ptrs := wrap PW (l_wr s + 2 ^ PW - l_rd s) in                                          (* sizeByPtrs, :140-141 *)
    let '(id, len, rem') := l_req by_ptrs (l_rem s) in
    let pend' := if l_pend s then negb (data_ack && r_l i) else q_rd i && space && has in         (* :178-189 *)
    let rd' := match s_rd i with                                                                  (* :196-202 *)
               | Some v => wrap PW v
               | None => if r_v i && l_pend s && h_rd bo && mine then winc PW (l_rd s) else l_rd s
               end in
    let wr' := match s_wr i with Some v => wrap PW v | None => l_wr s end in                      (* :110-112 *)
    (mk_l buf' pend' base' (if do_req then rem' else l_rem s) rd' wr',
     mk_lo (h_rd bo && l_pend s) (negb (l_pend s) && space && has) id (l_base s * 2 ^ l_al) len (h_vld bo) (h_data bo)
           (l_base s * 2 ^ l_al) (l_rd s) (l_wr s) (l_rem s)).
End Llr.
