(** Model of hwtLib/xilinx/ipif/axi4Lite_to_ipif.py [Axi4Lite_to_Ipif]. *)
From Verif Require Import Base.

Section Ipif.
  (** address, data, strb / byte enable; [None] stands for an undefined value (data(None)) *)
  Context {AD D M : Type}.
  (** axi4Lite_to_ipif.py:69-73 *)
  Inductive ip_st := s_idle | s_write | s_wait | s_wack | s_read | s_rack.
  (** amba/constants.py:90-92 *)
  Definition OKAY := 0. Definition SLVERR := 2.
  (** state, addr, dataR, dataW, strbW, dataRegR_vld, respReg *)
  Record ipif := mk_ip { p_st : ip_st; p_addr : AD; p_dr : D; p_dw : D; p_sw : M; p_rv : bool; p_resp : nat }.
  (** ar, aw, w, r.ready, b.ready; ip2bus_rdack, ip2bus_wrack, ip2bus_error, ip2bus_data *)
  Record ip_in := mk_ii { ii_arv : bool; ii_ar : AD; ii_awv : bool; ii_aw : AD; ii_wv : bool; ii_wd : D; ii_ws : M; ii_rrd : bool;
    ii_brd : bool; ii_rdack : bool; ii_wrack : bool; ii_err : bool; ii_data : D }.
  (** ar.ready, aw.ready, w.ready, r, b; bus2ip_cs, bus2ip_rnw, bus2ip_addr, bus2ip_data, bus2ip_be *)
  Record ip_out := mk_io { io_arrd : bool; io_awrd : bool; io_wrd : bool; io_rv : bool; io_rd : option D; io_rresp : nat; io_bv : bool;
    io_bresp : nat; io_cs : bool; io_rnw : bool; io_addr : AD; io_data : D; io_be : M }.
  Definition is_idle (st : ip_st) : bool := match st with s_idle => true | _ => false end.
  (** mainFsm, :75-98 *)
  Definition fsm (s : ipif) (i : ip_in) : ip_st :=
    match p_st s with
    | s_idle => if ii_arv i then s_read else if ii_awv i then s_wait else s_idle
    | s_wait => if ii_wv i then s_write else s_wait
    | s_write => if ii_wrack i && ii_brd i then s_idle else if ii_wrack i then s_wack else s_write
    | s_wack => if ii_brd i then s_idle else s_wack
    | s_read => if (ii_rdack i || p_rv s) && ii_rrd i then s_idle else if ii_rdack i then s_rack else s_read
    | s_rack => if ii_rrd i then s_idle else s_rack
    end.
  Definition ip_step (s : ipif) (i : ip_in) : ipif * ip_out :=
    let idle := is_idle (p_st s) in
    (* handleResp, :31-50 *)
    let resp := if ii_err i then SLVERR else OKAY in
    let ack := ii_wrack i || ii_rdack i in
    let resp_tmp := if ack then resp else p_resp s in
    (* :120-132 *)
    let take_w := ((idle && ii_awv i && negb (ii_arv i)) || match p_st s with s_wait => true | _ => false end) && ii_wv i in
    let take_r := ii_rdack i && ((idle && ii_arv i) || match p_st s with s_read => true | _ => false end) in
    (mk_ip (fsm s i)
           (if idle then if ii_arv i then ii_ar i else if ii_awv i then ii_aw i else p_addr s else p_addr s)   (* handleAddr, :52-64 *)
           (if take_r then ii_data i else p_dr s) (if take_w then ii_wd i else p_dw s) (if take_w then ii_ws i else p_sw s)
           (if idle then ii_rdack i else p_rv s)                                                             (* :134-136 *)
           (if ack then resp else p_resp s),
     mk_io idle (idle && negb (ii_arv i)) (match p_st s with s_wait => true | _ => false end)                 (* :112-115 *)
           (match p_st s with s_read => if p_rv s then true else ii_rdack i | s_rack => true | _ => false end) (* :144-159 *)
           (match p_st s with s_read => Some (if p_rv s then p_dr s else ii_data i) | s_rack => Some (p_dr s) | _ => None end)
           resp_tmp
           (match p_st s with s_write => ii_wrack i | s_wack => true | _ => false end)                         (* :161-168 *)
           resp_tmp
           (match p_st s with s_write | s_read => true | _ => false end) (match p_st s with s_read => true | _ => false end)
           (p_addr s) (p_dw s) (if idle then ii_ws i else p_sw s)).                                           (* :138-142, 170-172 *)
  (** after reset; the other registers are arbitrary *)
  Definition ip_init (a : AD) (d1 d2 : D) (m : M) (r : nat) : ipif := mk_ip s_idle a d1 d2 m false r.
End Ipif.
Arguments ipif : clear implicits. Arguments ip_in : clear implicits. Arguments ip_out : clear implicits.
