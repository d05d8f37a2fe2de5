(** Models of hwtLib/amba/datapump/base.py [AxiDatapumpBase] (the address handler, all configurations), r.py [Axi_rDatapump] (data path in DpRModel.v)
    and w.py [Axi_wDatapump] (data path in DpWModel.v).  Sizes are in bytes; the constant fields of the
    address channel (burst, cache, prot, size, ...; base.py:129-141) are not modelled. *)
From Verif Require Import Base FifoModel.

(** LEN_WIDTH of the AXI class (0 for AXI-Lite), ADDR_WIDTH, DATA_WIDTH/8, ALIGNAS/8, CHUNK_WIDTH/8, driver.req.MAX_LEN, MAX_TRANS_OVERLAP *)
Record dpcfg := mk_dpcfg { LW : nat; AW : nat; WB : nat; AL : nat; CB : nat; MAXLEN : nat; OVERLAP : nat }.

Section Cfg.
  Variable c : dpcfg.
  (** getSizeAlignBits, base.py:76-77 *)
  Definition sbits : nat := log2ceil (WB c).
  (** addrAlign, base.py:79-80; addrIsAligned, base.py:82-83; isAlwaysAligned, base.py:85-86 *)
  Definition addr_align (a : nat) : nat := a / 2 ^ sbits * 2 ^ sbits.
  Definition addr_offset (a : nat) : nat := a mod 2 ^ sbits.
  Definition addr_is_aligned (a : nat) : bool := addr_offset a =? 0.
  Definition always_aligned : bool := AL c =? WB c.
  (** useTransSplitting, base.py:106-121 *)
  Definition use_split : bool :=
    if 2 ^ LW c <? MAXLEN c + 1 then true
    else if MAXLEN c + 1 =? 2 ^ LW c then
      (negb (AL c =? WB c) && (WB c <=? CB c)) || existsb (fun k => WB c <? k * AL c + CB c) (seq 0 (WB c / AL c))
    else false.
  (** getAxiLenMax, base.py:126-127; getBurstAddrOffset, base.py:123-124 *)
  Definition len_max : nat := 2 ^ LW c - 1.
  Definition addr_step : nat := (len_max + 1) * 2 ^ sbits.
  (** hasAlignmentError, base.py:149-153 *)
  Definition alignment_error (a : nat) : bool := if AL c =? 1 then false else negb (a mod 2 ^ log2ceil (CB c) =? 0).
  (** isCrossingWordBoundary, base.py:155-161; offset_t has sbits + 1 bits *)
  Definition crossing (a rem : nat) : bool :=
    let w := sbits + 1 in
    let in_last := if rem =? 0 then wrap w (WB c) else wrap w rem in
    let avail := wrap w (WB c + 2 ^ w - addr_offset a) in
    avail <? in_last.

  (** a request of the driver: addr, len (words - 1), rem (bytes of the last word, 0 = all); AddrSizeHs, intf.py:20-46 *)
  Record dreq := mk_dreq { q_addr : nat; q_len : nat; q_rem : nat }.
  (** registers transPartPending, addrTmp, reqLenRemaining, base.py:183-184, :202 *)
  Record ah_st := mk_ah { a_pend : bool; a_addr : nat; a_remain : nat }.
  (** driver.req vld and value; ready of the address channel; ready of transInfo; errFlag *)
  Record ah_in := mk_ahi { ai_vld : bool; ai_req : dreq; ai_rdy : bool; ai_irdy : bool; ai_err : bool }.
  (** driver.req.rd; address channel valid, addr, len; transInfo.vld; isLast given to storeTransInfo *)
  Record ah_out := mk_aho { ao_rd : bool; ao_vld : bool; ao_addr : nat; ao_len : nat; ao_ivld : bool; ao_last : bool }.
  (** [a0], [l0]: registers without a reset value *)
  Definition ah_init (a0 l0 : nat) : ah_st := mk_ah false a0 l0.

  (** reqLen of a new request, base.py:222-233; for the not splitting variant base.py:250-263 *)
  Definition new_len (q : dreq) : nat :=
    if negb always_aligned && negb (addr_is_aligned (q_addr q)) && crossing (q_addr q) (q_rem q) then q_len q + 1 else q_len q.

  (** addrHandler with splitting, base.py:180-245; the StreamNodes are expanded: dispatchNode.sync (:186-196), its ack (:197-198),
      StreamNode([req], [axiA, transInfo]).ack() (:214). [xl] is the unknown reqLen without a request (:222). *)
  Definition ah_split (xl : nat) (s : ah_st) (i : ah_in) : ah_st * ah_out :=
    let q := ai_req i in
    let al_err := alignment_error (q_addr q) in
    let req_len := if a_pend s then a_remain s else if ai_vld i then new_len q else xl in
    let more := len_max <? req_len in
    let ack0 := ai_vld i && ai_rdy i && ai_irdy i && negb (ai_err i) in
    let pend' := if ack0 then more else a_pend s in
    let ok := ai_vld i && negb al_err in
    let ack := ((ai_vld i && negb pend') || pend') && (ai_rdy i && ok) && (ai_irdy i && ok) && negb (ai_err i) in
    (mk_ah pend'
           (if a_pend s then (if ack then wrap (AW c) (a_addr s + addr_step) else a_addr s) else wrap (AW c) (q_addr q + addr_step))
           (if ack0 && more then req_len - (len_max + 1) else a_remain s),
     mk_aho (ai_rdy i && ai_irdy i && negb pend' && negb (ai_err i))
            ((ai_vld i || pend') && ai_irdy i && ok && negb (ai_err i))
            (addr_align (if a_pend s then a_addr s else q_addr q))
            (if more then len_max else wrap (LW c) req_len)
            ((ai_vld i || pend') && ai_rdy i && ok && negb (ai_err i))
            (negb more)).

  (** addrHandler without splitting, base.py:247-272 *)
  Definition ah_direct (s : ah_st) (i : ah_in) : ah_st * ah_out :=
    let q := ai_req i in
    let al_err := alignment_error (q_addr q) in
    (s, mk_aho (ai_rdy i && ai_irdy i && negb (ai_err i))
               (ai_vld i && ai_irdy i && negb al_err && negb (ai_err i))
               (addr_align (q_addr q))
               (if 0 <? MAXLEN c then wrap (LW c) (new_len q) else 0)
               (ai_vld i && ai_rdy i && negb al_err && negb (ai_err i))
               true).

  Definition ah_step (xl : nat) : ah_st -> ah_in -> ah_st * ah_out := if use_split then ah_split xl else ah_direct.
End Cfg.
