(** Model of hwtLib/avalon/axiToMm.py [Axi4_to_AvalonMm]. *)
From Verif Require Import Base FifoModel.

Section Avm.
  (** address, id, data, strb *)
  Context {AD ID D M : Type}.
  (** RW_PRIORITY == READ (axiToMm.py:55) and R_DATA_FIFO_DEPTH (:56; both fifos use it, :69, 79).
      MAX_BURST = 512 is required (:53, 72-73), hence LEN_WIDTH = 8 and burstCount has log2ceil(512) = 9 bits. *)
  Variable RP : bool.
  Variable DEPTH : nat.
  Definition burst_w : nat := 9.
  (** HBits(log2ceil(R_DATA_FIFO_DEPTH + 1)), :163 *)
  Definition cap_w : nat := log2ceil (DEPTH + 1).

  (** addr_tmp (:144-156), r_data_fifo_capacity (:161-164), r_size_fifo (:67-71), r_data_fifo (:78-81), wordIndexCntr (:88-96).
      Fields which the code sets to None when addr_tmp is cleared (:120-128) keep their value here: they are only used together with vld. *)
  Record avm_st := mk_av { t_addr : AD; t_id : ID; t_len : nat; t_olen : nat; t_isw : bool; t_vld : bool; cap : nat;
    sf : hsf_st (ID * nat); df : hsf_st D; c_id : ID; c_len : nat; c_vld : bool }.
  (** ar, aw, w, r.ready, b.ready; waitRequest, readDataValid, readData *)
  Record avm_in := mk_vi { v_arv : bool; v_ara : AD; v_arid : ID; v_arl : nat; v_awv : bool; v_awa : AD; v_awid : ID; v_awl : nat;
    v_wv : bool; v_wd : D; v_ws : M; v_wl : bool; v_rrd : bool; v_brd : bool; v_wait : bool; v_rdv : bool; v_rdat : D }.
  (** ar.ready, aw.ready, w.ready, r, b; address, burstCount, read, write, writeData, byteEnable *)
  Record avm_out := mk_vo { o_arrd : bool; o_awrd : bool; o_wrd : bool; o_rv : bool; o_rid : ID; o_rd : D; o_rlast : bool; o_bv : bool; o_bid : ID;
    o_addr : AD; o_burst : nat; o_read : bool; o_write : bool; o_wd : D; o_ws : M }.

  (** will_be_idle, :166-173 *)
  Definition will_idle (s : avm_st) (i : avm_in) : bool :=
    negb (t_vld s) || (negb (t_isw s) && negb (v_wait i)) ||
    (t_vld s && t_isw s && negb (v_wait i) && (t_len s =? 0) && v_wv i && v_brd i).
  (** :180, 187 *)
  Definition is_w (s : avm_st) : bool := t_vld s && t_isw s.
  Definition not_last_w (s : avm_st) : bool := is_w s && negb (t_len s =? 0).
  (** (addr_tmp.len != 0) | axi.b.ready *)
  Definition w_go (s : avm_st) (i : avm_in) : bool := negb (t_len s =? 0) || v_brd i.
  (** ar_en, :176-178 and 206-208; fitTo(axi.ar.len, r_data_fifo_capacity) keeps the low bits of len. [sfrd] is r_size_in.rd *)
  Definition ar_en (s : avm_st) (i : avm_in) (sfrd : bool) : bool :=
    let e := will_idle s i && v_arv i && (wrap cap_w (v_arl i) <? cap s) && sfrd in
    if RP then e else e && negb (not_last_w s) && negb (v_awv i && v_wv i).
  (** aw_en, :186 and 189 *)
  Definition aw_en (s : avm_st) (i : avm_in) : bool :=
    let e := (negb (t_vld s) || negb (v_wait i)) && v_wv i && (negb (t_vld s) || negb (t_isw s) || w_go s i) in
    if RP then negb (v_arv i) && e else e.
  (** addr_tmp_ack, :182-185 *)
  Definition tmp_ack (s : avm_st) (i : avm_in) : bool := negb (v_wait i) && negb (is_w s && negb (v_wv i && w_go s i)).

  (** next addr_tmp, load_addr_tmp :119-137: addr, id, len, len_original, is_w, vld *)
  Definition tmp_t : Type := AD * ID * nat * nat * bool * bool.
  Definition tmp_of (s : avm_st) : tmp_t := (t_addr s, t_id s, t_len s, t_olen s, t_isw s, t_vld s).
  Definition load_r (i : avm_in) : tmp_t := (v_ara i, v_arid i, v_arl i, v_arl i, false, true).
  Definition load_w (i : avm_in) : tmp_t := (v_awa i, v_awid i, v_awl i, v_awl i, true, true).
  Definition load_0 (s : avm_st) : tmp_t := (t_addr s, t_id s, t_len s, t_olen s, t_isw s, false).
  Definition load_dec (s : avm_st) : tmp_t := (t_addr s, t_id s, wdec 8 (t_len s), t_olen s, t_isw s, t_vld s).
  (** :188-223 *)
  Definition tmp_next (s : avm_st) (i : avm_in) (en : bool) : tmp_t :=
    let dec := negb (v_wait i) && not_last_w s && v_wv i in
    let neww := will_idle s i && v_awv i && v_wv i in
    if RP then
      if en then load_r i else if dec then load_dec s else if neww then load_w i else if tmp_ack s i then load_0 s else tmp_of s
    else
      if dec then load_dec s else if neww then load_w i else if en then load_r i else if tmp_ack s i then load_0 s else tmp_of s.
  (** r_data_fifo_capacity, :229-235: a subtraction of bit vectors *)
  Definition csub (x y : nat) : nat := wrap cap_w (x + 2 ^ cap_w - y).
  Definition cap_next (s : avm_st) (i : avm_in) (rack en : bool) : nat :=
    if rack && en then csub (cap s) (wrap cap_w (v_arl i))
    else if rack then winc cap_w (cap s)
    else if en then csub (wdec cap_w (cap s)) (wrap cap_w (v_arl i))
    else cap s.

  Definition avm_step (s : avm_st) (i : avm_in) : avm_st * avm_out :=
    let sfrd := negb (f_wwait (hf (sf s))) in
    let en := ar_en s i sfrd in
    (* r_out_node = StreamNode([r_data_fifo.dataOut], [axi.r]), :98-99; ack() does not contain the enable wordIndexCntr.vld *)
    let rack := ovld (df s) && v_rrd i in
    let new_size := negb (c_vld s) || ((c_len s =? 0) && rack) in                            (* :102 *)
    let '(sf', so) := hsf_step DEPTH (sf s) (mk_hin en (v_arid i, v_arl i) new_size) in       (* :111, 225-227 *)
    let '(df', d_o) := hsf_step DEPTH (df s) (mk_hin (v_rdv i) (v_rdat i) (v_rrd i && c_vld s)) in (* :84-85, 99 *)
    let '(a, d, l, ol, w, v) := tmp_next s i en in
    let '(ci, cl, cv) :=                                                                      (* :103-110 *)
      if new_size then (fst (h_data so), snd (h_data so), h_vld so)
      else if rack then (c_id s, wdec 8 (c_len s), negb (c_len s =? 0)) else (c_id s, c_len s, c_vld s) in
    let wrd := t_vld s && t_isw s && negb (v_wait i) && w_go s i in                           (* :247-252 *)
    (mk_av a d l ol w v (cap_next s i rack en) sf' df' ci cl cv,
     mk_vo (will_idle s i && en) (will_idle s i && aw_en s i) wrd                             (* :236-237 *)
           (h_vld d_o && c_vld s) (c_id s) (h_data d_o) (c_len s =? 0)                        (* :99, 113-116 *)
           (t_vld s && t_isw s && negb (v_wait i) && wrd && v_wv i && v_wl i) (t_id s)        (* :254-261 *)
           (t_addr s) (wrap burst_w (t_olen s + 1)) (t_vld s && negb (t_isw s))               (* :239-241 *)
           (is_w s && v_wv i && w_go s i) (v_wd i) (v_ws i)).                                 (* :242-245 *)

  (** after reset; the other registers and the memories are arbitrary *)
  Definition avm_init (a : AD) (d : ID) (l ol : nat) (w : bool) (m1 : nat -> ID * nat) (x1 : ID * nat) (m2 : nat -> D) (x2 : D) (ci : ID) (cl : nat) : avm_st :=
    mk_av a d l ol w false DEPTH (hsf_init DEPTH [] m1 x1) (hsf_init DEPTH [] m2 x2) ci cl false.
End Avm.
Arguments avm_st : clear implicits. Arguments avm_in : clear implicits. Arguments avm_out : clear implicits.
