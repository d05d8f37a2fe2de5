(** Model of hwtLib/mem/ramTransactional.py [RamTransactional] with its RamSingleClock (mem/ram.py, one read and one write port)
    and two RamAsAddrDataRdVld (handshaked/ramAsAddrDataRdVld.py, a read only and a write only one). *)
From Verif Require Import Base.

Section Rtr.
  Context {D : Type}.  (* one word of data *)
  Variable n : nat.    (* ITEM_WORDS, a power of two *)

  (** inputs of a cycle: r.addr (vld, addr, priv), r.data.ready, w.addr (vld, addr, flush, priv), w.data (valid and how the word
      with its strobes changes the content of the memory), flush_data.addr.rd, flush_data.data.ready *)
  Record rtr_in := mk_ti { ra_vld : bool; ra_addr : nat; ra_id : nat; rd_rdy : bool;
    wa_vld : bool; wa_addr : nat; wa_flush : bool; wa_priv : nat; wd_vld : bool; wd_put : D -> D;
    fa_rdy : bool; fd_rdy : bool }.
  (** outputs: r.addr.rd, w.addr.rd, w.data.ready, r.data, flush_data.addr and flush_data.data if valid *)
  Record rtr_out := mk_to { ra_rdy : bool; wa_rdy : bool; wd_rdy : bool;
    r_data : option (option nat * D * bool); f_addr : option (option nat * option nat); f_data : option (D * bool) }.

  (** reg.T of r_meta, ramTransactional.py:103-113; [None] = an undefined value *)
  Record meta := mk_m { m_rpriv : option nat; m_wpriv : option nat; m_addr : option nat; m_fl : bool; m_last : bool; m_first : bool }.
  Record rtr := mk_rt {
    mem : nat -> D;                                              (* data_array *)
    dout : D; pend : bool; rdv : bool; rdat : D; ov : bool; odat : D;  (* data_arr_r_to_hs *)
    m0v : bool; m0 : meta; m1v : bool; m1 : meta;                (* r_meta *)
    r_item : nat; r_word : nat; r_v : bool;                      (* r_index *)
    w_item : nat; w_word : nat; w_v : bool; w_fl : bool }.       (* w_index *)

  Definition multi : bool := 1 <? n.
  (** flush_req, ramTransactional.py:361-363 *)
  Definition flush_req (s : rtr) (i : rtr_in) : bool := wa_vld i && (wa_flush i && negb (r_v s) && negb (w_v s)).
  (** flush_pending, :121 *)
  Definition flush_pending (s : rtr) : bool := w_v s && w_fl s.
  (** priv_copy, :123-134 *)
  Definition rpriv_copy (s : rtr) : option nat := if m0v s then m_rpriv (m0 s) else m_rpriv (m1 s).
  Definition wpriv_copy (s : rtr) : option nat := if m0v s then m_wpriv (m0 s) else m_wpriv (m1 s).
  (** r_meta[0].dataIn, :149-176; set_first_last :136-146 *)
  Definition meta_in (s : rtr) (i : rtr_in) : meta :=
    let fst_ b := if n - 1 =? 0 then true else b in
    let lst b := if n - 1 =? 0 then true else b in
    if flush_pending s then
      mk_m (rpriv_copy s) (wpriv_copy s) None true (lst (w_word s =? n - 1)) (fst_ false)
    else if flush_req s i && negb (r_v s) then
      mk_m None (Some (wa_priv i)) (Some (wa_addr i)) true (lst false) (fst_ true)
    else if r_v s then
      mk_m (rpriv_copy s) (wpriv_copy s) None false (lst (r_word s =? n - 1)) (fst_ false)
    else mk_m (Some (ra_id i)) None (Some (ra_addr i)) false (lst false) (fst_ true).

  (** the outputs of the second StreamNode, :252-266: da_r.data and r_meta[1] to r.data, flush_data.addr, flush_data.data *)
  Definition skip_r (s : rtr) : bool := m1v s && m_fl (m1 s).
  Definition skip_fd (s : rtr) : bool := m1v s && negb (m_fl (m1 s)).
  Definition skip_fa (s : rtr) : bool := m1v s && (negb (m_fl (m1 s)) || negb (m_first (m1 s))).
  Definition out_ok (s : rtr) (i : rtr_in) : bool :=
    (rd_rdy i || skip_r s) && (fa_rdy i || skip_fa s) && (fd_rdy i || skip_fd s).
  Definition r_vld (s : rtr) (i : rtr_in) : bool :=
    rdv s && m1v s && (fa_rdy i || skip_fa s) && (fd_rdy i || skip_fd s) && negb (m_fl (m1 s)) && negb (skip_r s).
  Definition fa_vld (s : rtr) (i : rtr_in) : bool :=
    rdv s && m1v s && (rd_rdy i || skip_r s) && (fd_rdy i || skip_fd s) && (m_fl (m1 s) && m_first (m1 s)) && negb (skip_fa s).
  Definition fd_vld (s : rtr) (i : rtr_in) : bool :=
    rdv s && m1v s && (rd_rdy i || skip_r s) && (fa_rdy i || skip_fa s) && m_fl (m1 s) && negb (skip_fd s).
  (** ready of da_r.data and of r_meta[1].dataOut *)
  Definition dd_rdy (s : rtr) (i : rtr_in) : bool := m1v s && out_ok s i.
  Definition m1o_rdy (s : rtr) (i : rtr_in) : bool := rdv s && out_ok s i.
  (** dataIn.rd of the two HandshakedReg with LATENCY=1 *)
  Definition m1i_rdy (s : rtr) (i : rtr_in) : bool := m1o_rdy s i || negb (m1v s).
  Definition m0i_rdy (s : rtr) (i : rtr_in) : bool := m1i_rdy s i || negb (m0v s).
  (** rEn of the read only RamAsAddrDataRdVld, ramAsAddrDataRdVld.py:79 *)
  Definition da_rdy (s : rtr) (i : rtr_in) : bool := (negb (ov s) || dd_rdy s i) && (negb (rdv s) || dd_rdy s i).

  (** the first StreamNode, :192-205 *)
  Definition r_en (s : rtr) (i : rtr_in) : bool := r_v s || flush_req s i || ra_vld i.
  Definition skip_ra (s : rtr) (i : rtr_in) : bool := flush_req s i || r_v s.
  Definition ra_ok (s : rtr) (i : rtr_in) : bool :=
    da_rdy s i && m0i_rdy s i && (negb (flush_req s i) && negb (r_v s)) && negb (skip_ra s i).
  Definition da_vld (s : rtr) (i : rtr_in) : bool := (ra_vld i || skip_ra s i) && m0i_rdy s i && r_en s i.
  Definition m0i_vld (s : rtr) (i : rtr_in) : bool := (ra_vld i || skip_ra s i) && da_rdy s i && r_en s i.
  (** ack(): all valid and ready or skipped, with all conditions *)
  Definition r_ack (s : rtr) (i : rtr_in) : bool :=
    (ra_vld i && (negb (flush_req s i) && negb (r_v s)) || skip_ra s i) && da_rdy s i && m0i_rdy s i && r_en s i.
  (** da_r.addr.data, :208-230 *)
  Definition da_addr (s : rtr) (i : rtr_in) : nat :=
    if r_v s then r_item s * n + (if multi then r_word s else 0)
    else if flush_req s i then wa_addr i * n else ra_addr i * n.

  (** the write StreamNode, :288-306; the write only RamAsAddrDataRdVld is always ready *)
  Definition w_addr_en (s : rtr) (i : rtr_in) : bool :=
    negb (w_v s) && (negb (wa_vld i) || negb (wa_flush i) || (negb (r_v s) && da_rdy s i && m0i_rdy s i)).
  Definition w_data_en (s : rtr) (i : rtr_in) : bool := w_v s || (wa_vld i && negb (w_v s)).
  Definition wa_ok (s : rtr) (i : rtr_in) : bool := wd_vld i && w_addr_en s i && negb (w_v s).
  Definition wd_ok (s : rtr) (i : rtr_in) : bool := (wa_vld i || w_v s) && w_data_en s i.
  (** da_w.vld *)
  Definition dw_vld (s : rtr) (i : rtr_in) : bool := (wa_vld i || w_v s) && wd_vld i.
  Definition w_ack (s : rtr) (i : rtr_in) : bool := (wa_vld i && w_addr_en s i || w_v s) && (wd_vld i && w_data_en s i).
  (** da_w.addr, :329-337 *)
  Definition dw_addr (s : rtr) (i : rtr_in) : nat :=
    if w_v s then w_item s * n + (if multi then w_word s else 0) else wa_addr i * n.

  (** r_index, :232-249 *)
  Definition r_index' (s : rtr) (i : rtr_in) : nat * nat * bool :=
    if r_ack s i then
      if r_word s =? 0 then
        ((if flush_req s i then wa_addr i else ra_addr i), (if multi then 1 else 0),
         if flush_req s i then multi else ra_vld i && multi)
      else if r_word s =? n - 1 then (r_item s, 0, false)
      else (r_item s, r_word s + 1, r_v s)
    else (r_item s, r_word s, r_v s).
  (** w_index, :309-327 *)
  Definition w_index' (s : rtr) (i : rtr_in) : nat * nat * bool * bool :=
    if w_ack s i then
      if w_word s =? 0 then (wa_addr i, (if multi then 1 else 0), multi, wa_flush i)
      else if w_word s =? n - 1 then (w_item s, 0, false, false)
      else (w_item s, w_word s + 1, w_v s, w_fl s)
    else (w_item s, w_word s, w_v s, w_fl s).

  (** readData and readDataOverflow, ramAsAddrDataRdVld.py:81-99 *)
  Definition read_regs' (s : rtr) (i : rtr_in) : bool * D * bool * D :=
    if pend s then
      if negb (rdv s) || dd_rdy s i then (true, dout s, false, odat s) else (rdv s, rdat s, true, dout s)
    else
      if dd_rdy s i then (ov s, odat s, false, odat s) else (rdv s, rdat s, ov s, odat s).

  Definition rtr_out_of (s : rtr) (i : rtr_in) : rtr_out :=
    mk_to (ra_ok s i) (wa_ok s i) (wd_ok s i)
      (if r_vld s i then Some (m_rpriv (m1 s), rdat s, m_last (m1 s)) else None)
      (if fa_vld s i then Some (m_wpriv (m1 s), m_addr (m1 s)) else None)
      (if fd_vld s i then Some (rdat s, m_last (m1 s)) else None).
  Definition rtr_next (s : rtr) (i : rtr_in) : rtr :=
    let issue := da_vld s i && da_rdy s i in
    let '(rdv', rdat', ov', odat') := read_regs' s i in
    let '(ri, rw, rv) := r_index' s i in
    let '(wi, ww, wv, wf) := w_index' s i in
    mk_rt (if dw_vld s i then upd (mem s) (dw_addr s i) (wd_put i (mem s (dw_addr s i))) else mem s)
      (if issue then mem s (da_addr s i) else dout s) issue rdv' rdat' ov' odat'
      (* HandshakedReg LATENCY=1: loaded when its input is ready *)
      (if m0i_rdy s i then m0i_vld s i else m0v s) (if m0i_rdy s i && m0i_vld s i then meta_in s i else m0 s)
      (if m1i_rdy s i then m0v s else m1v s) (if m1i_rdy s i && m0v s then m0 s else m1 s)
      ri rw rv wi ww wv wf.
  Definition rtr_step (s : rtr) (i : rtr_in) : rtr * rtr_out := (rtr_next s i, rtr_out_of s i).
  (** the registers without def_val are arbitrary *)
  Definition rtr_init (m : nat -> D) (a b c : D) (x y : meta) (p q : nat) : rtr :=
    mk_rt m a false false b false c false x false y p 0 false q 0 false false.
End Rtr.
