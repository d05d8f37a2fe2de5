(** Models of hwtLib/cesnet/mi32: to_axi4Lite.py, axi4Lite_to_mi32.py, sliding_window.py and buff.py.
    Addresses and data are of arbitrary types unless there is arithmetic on them. *)
From Coq Require Export NArith.
From Verif Require Import Base HsRegModel.

(** * Mi32_to_Axi4Lite *)
Section ToAxi.
  Context {Ad W D : Type}.  (* address; written word with its byte mask; read data *)
  (** w_data (to_axi4Lite.py:42-46): Some is pending *)
  Record ma_st := mk_ma { m_w : option W }.
  (** mi32 rd, wr, addr, dwr with be; ar.ready, aw.ready, w.ready, r (valid, data) *)
  Record ma_in := mk_mai { mi_rd : bool; mi_wr : bool; mi_addr : Ad; mi_dwr : W;
                           xi_ar : bool; xi_aw : bool; xi_w : bool; xi_r : option D }.
  (** mi32 ardy, drdy with drd; ar (valid), aw (valid), w (valid, data); the addresses are mi32.addr; b.ready and r.ready are 1 *)
  Record ma_out := mk_mao { mo_ardy : bool; mo_d : option D; xo_ar : bool; xo_aw : bool; xo_w : option W }.
  Definition ma_init : ma_st := mk_ma None.
  Definition isSome {A} (x : option A) : bool := match x with Some _ => true | None => false end.
  (** to_axi4Lite.py:47-80 *)
  Definition ma_step (s : ma_st) (i : ma_in) : ma_st * ma_out :=
    let clean := negb (isSome (m_w s)) || xi_w i in
    let w_en := mi_wr i && xi_ar i in
    (mk_ma (match m_w s with
            | Some w => if xi_w i then (if w_en && xi_aw i then Some (mi_dwr i) else None) else Some w
            | None => if w_en && xi_aw i then Some (mi_dwr i) else None end),
     mk_mao (xi_ar i && xi_aw i && clean) (xi_r i) (mi_rd i && xi_aw i) (w_en && clean) (m_w s)).
End ToAxi.
Arguments ma_st : clear implicits. Arguments ma_in : clear implicits. Arguments ma_out : clear implicits.

(** * Axi4Lite_to_Mi32 *)
Section FromAxi.
  Context {Ad W D : Type}.
  (** addr, addr_vld, addr_w, r_data, r_data_vld, r_transaction_pending, w_transaction_pending (axi4Lite_to_mi32.py:36-46).
      Where the code assigns None (unknown) to addr, addr_w or r_data the model keeps the old value; these registers are not used
      while the valid flag is 0. *)
  Record am_st := mk_am { a_addr : Ad; a_vld : bool; a_w : bool; a_d : D; a_dvld : bool; a_rp : bool; a_wp : bool }.
  (** ar (valid, addr), aw (valid, addr), w (valid, data), b.ready, r.ready; mi32 ardy, drdy with drd *)
  Record am_in := mk_ami { axi_ar : option Ad; axi_aw : option Ad; axi_w : option W; axi_brd : bool; axi_rrd : bool;
                           mi_ardy : bool; mi_d : option D }.
  (** ar.ready, aw.ready, w.ready, b.valid, r (valid, data); mi32 rd, wr, addr (dwr is w.data) *)
  Record am_out := mk_amo { axo_ar : bool; axo_aw : bool; axo_w : bool; axo_b : bool; axo_r : option D;
                            mo_rd : bool; mo_wr : bool; mo_addr : Ad }.
  Definition am_init (a : Ad) (d : D) : am_st := mk_am a false false d false false false.
  (** axi4Lite_to_mi32.py:47-122; [rp] is RW_PRIORITY == READ *)
  Definition am_step (rp : bool) (s : am_st) (i : am_in) : am_st * am_out :=
    let r_ack := axi_rrd i && a_dvld s in
    let w_rd := a_vld s && a_w s && mi_ardy i in                              (* axi_w_ready_tmp, :112 *)
    let w_ack := a_vld s && a_w s && mi_ardy i && w_rd in
    let idle := (negb (a_rp s) || r_ack) && (negb (a_wp s) || w_ack) in
    let addr_ack := mi_ardy i in                                              (* :109 *)
    let ready_for := negb (a_vld s) || addr_ack in
    let arv := isSome (axi_ar i) in
    let awv := isSome (axi_aw i) in
    let sel_r := match axi_ar i with Some a => Some (a, false) | None => None end in
    let sel_w := match axi_aw i with Some a => Some (a, true) | None => None end in
    let sel := if rp then (if arv then sel_r else sel_w) else (if awv then sel_w else sel_r) in
    let '(addr', vld', w') :=
      match (if idle then sel else None) with
      | Some (a, w) => (a, true, w)
      | None => (a_addr s, if addr_ack then false else a_vld s, a_w s)
      end in
    let '(d', dvld') := match mi_d i with Some d => (d, true) | None => (a_d s, if axi_rrd i then false else a_dvld s) end in
    (mk_am addr' vld' w' d' dvld'
           (if r_ack then (if rp then arv else negb awv && arv) else a_rp s)
           (if w_ack then (if rp then negb arv && awv else awv) else a_wp s),
     mk_amo (if rp then idle && ready_for else idle && negb awv && ready_for)
            (if rp then idle && (negb arv && ready_for) else idle && ready_for)
            w_rd (a_vld s && a_w s && mi_ardy i && w_rd)
            (if a_dvld s then Some (a_d s) else None)
            (idle && a_vld s && negb (a_w s)) (idle && a_vld s && a_w s && isSome (axi_w i)) (a_addr s)).
End FromAxi.
Arguments am_st : clear implicits. Arguments am_in : clear implicits. Arguments am_out : clear implicits.

(** * Mi32SlidingWindow *)
(** s: rd, wr, addr, dwr; m.ardy. The other signals are wires. *)
Record sw_in := mk_swi { si_rd : bool; si_wr : bool; si_addr : N; si_dwr : N; si_ardy : bool }.
(** s.ardy; m: rd, wr, addr *)
Record sw_out := mk_swo { so_ardy : bool; so_rd : bool; so_wr : bool; so_addr : N }.
(** sliding_window.py:52-63; the state is the register offset, reset value 0; the written word is cut to the width of the register *)
Definition sw_step (MAW : nat) (WINDOW : N) (s : N) (i : sw_in) : N * sw_out :=
  let offset_en := (si_addr i =? WINDOW)%N in
  (if offset_en && si_wr i then (si_dwr i mod 2 ^ N.of_nat MAW)%N else s,
   mk_swo (si_ardy i || (si_wr i && offset_en)) (si_rd i) (si_wr i && negb offset_en) ((s + si_addr i) mod 2 ^ N.of_nat MAW)%N).

(** * Mi32Buff *)
Section Buff.
  Context {R D : Type}.  (* the fields of a request (addr, be, dwr); read data *)
  (** the register of the requests, with the bits read and write (ADDR_BUFF_DEPTH = 1, a HandshakedReg), and the chain of
      read_data_reg (buff.py:84-95), nearest to the slave first *)
  Record bf_st := mk_bf { bf_a : stage (bool * bool * R); bf_d : list (option D) }.
  (** s: rd, wr, fields; m: ardy, drdy with drd *)
  Record bf_in := mk_bfi { bi_rd : bool; bi_wr : bool; bi_req : R; bi_ardy : bool; bi_d : option D }.
  (** s: ardy, drdy with drd; m: rd, wr, fields *)
  Record bf_out := mk_bfo { bo_ardy : bool; bo_d : option D; bo_rd : bool; bo_wr : bool; bo_req : R }.
  Definition bf_init (n : nat) (r0 : bool * bool * R) : bf_st := mk_bf (mk_stage KLat false r0) (repeat None n).
  (** buff.py:54-98 *)
  Definition bf_step (s : bf_st) (i : bf_in) : bf_st * bf_out :=
    let '(rd, wr, r) := sdat (bf_a s) in
    (mk_bf (stage_next (bf_a s) (bi_rd i || bi_wr i) (bi_rd i, bi_wr i, bi_req i) (bi_ardy i)) (removelast (bi_d i :: bf_d s)),
     mk_bfo (stage_rd (bf_a s) (bi_ardy i)) (last (bi_d i :: bf_d s) None)
            (occ (bf_a s) && rd) (occ (bf_a s) && wr) r).
End Buff.
Arguments bf_st : clear implicits. Arguments bf_in : clear implicits. Arguments bf_out : clear implicits.
