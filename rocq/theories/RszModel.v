(** Model of hwtLib/amba/axi_comp/resize.py [AxiResize] for Axi4Lite with DATA_WIDTH < OUT_DATA_WIDTH (the only widths which are
    implemented beside the equal ones, resize.py:172-197). Words are lists of bytes, byte 0 first. *)
From Verif Require Import Base HsRegModel FifoModel.

Section Rsz.
  (** byte, other signals of an address (prot) and of a response (resp) *)
  Context {V X P : Type} (z : V) (x0 : nat * X).
  (** DATA_WIDTH // 8, OUT_DATA_WIDTH // 8, OUT_ADDR_WIDTH, MAX_TRANS_OVERLAP *)
  Variables BI BO OAW DEPTH : nat.
  (** resize.py:43-44 *)
  Definition AL_IN : nat := log2ceil (BI - 1).
  Definition AL_OUT : nat := log2ceil (BO - 1).
  (** the address for the output and the number of the lane, :70-71, 78 *)
  Definition aligned (a : nat) : nat := wrap OAW (a / 2 ^ AL_OUT * 2 ^ AL_OUT).
  Definition lane (a : nat) : nat := a / 2 ^ AL_IN mod 2 ^ (AL_OUT - AL_IN).
  (** connect_shifted of w (data and strb) with connect_with_padding, :82-131; [fit=True] extends by zeros *)
  Definition place {T} (zero : T) (i : nat) (w : list T) : list T :=
    repeat zero (i * BI) ++ w ++ repeat zero (BO - (i + 1) * BI).
  (** connect_shifted of r: src[src_h:src_l] *)
  Definition pick {T} (i : nat) (w : list T) : list T := firstn BI (skipn (i * BI) w).

  (** propagate_addr, :56-80: register of buff() (HandshakedReg of LATENCY 1, streamBuilder.py:183-206) and align_fifo *)
  Record apath := mk_ap { p_buf : stage (nat * X); p_fifo : hsf_st nat }.
  (** valid and address of s, ready of m, ready of the reader of align_fifo *)
  Record ap_in := mk_api { pi_vld : bool; pi_a : nat * X; pi_mrd : bool; pi_lrd : bool }.
  (** ready to s, valid and address to m, valid and data of align_fifo *)
  Record ap_out := mk_apo { po_rd : bool; po_vld : bool; po_a : nat * X; po_lvld : bool; po_lane : nat }.
  Definition ap_step (s : apath) (i : ap_in) : apath * ap_out :=
    let a := sdat (p_buf s) in
    let '(f, fo) := hsf_step DEPTH (p_fifo s) (mk_hin (occ (p_buf s) && pi_mrd i) (lane (fst a)) (pi_lrd i)) in
    let out_rd := pi_mrd i && h_rd fo in
    (mk_ap (stage_next (p_buf s) (pi_vld i) (pi_a i) out_rd) f,
     mk_apo (stage_rd (p_buf s) out_rd) (occ (p_buf s) && h_rd fo) (aligned (fst a), snd a) (h_vld fo) (h_data fo)).
  (** after reset; memory and data register of the fifo and the data register of buff() are arbitrary *)
  Definition ap_init (m0 : nat -> nat) (d0 : nat) : apath := mk_ap (mk_stage KLat false x0) (hsf_init DEPTH [] m0 d0).

  (** pins driven from outside: aw, w, ready of b, ar, ready of r on s; ready of aw, ready of w, b, ready of ar, r on m *)
  Record rs_in := mk_ri { i_awv : bool; i_aw : nat * X; i_wv : bool; i_w : list V * list bool; i_brd : bool; i_arv : bool;
    i_ar : nat * X; i_rrd : bool; i_mawrd : bool; i_mwrd : bool; i_mbv : bool; i_mb : P; i_marrd : bool; i_mrv : bool; i_mr : list V * P }.
  (** pins driven by the component *)
  Record rs_out := mk_ro { o_awrd : bool; o_wrd : bool; o_bv : bool; o_b : P; o_arrd : bool; o_rv : bool; o_r : list V * P;
    o_mawv : bool; o_maw : nat * X; o_mwv : bool; o_mw : list V * list bool; o_mbrd : bool; o_marv : bool; o_mar : nat * X; o_mrrd : bool }.
  (** select_data_word_from_ouput_word, :133-164 *)
  Definition rs_step (s : apath * apath) (i : rs_in) : apath * apath * rs_out :=
    let '(w', wo) := ap_step (fst s) (mk_api (i_awv i) (i_aw i) (i_mawrd i) (i_wv i && i_mwrd i)) in
    let '(r', ro) := ap_step (snd s) (mk_api (i_arv i) (i_ar i) (i_marrd i) (i_mrv i && i_rrd i)) in
    (w', r',
     mk_ro (po_rd wo) (po_lvld wo && i_mwrd i) (i_mbv i) (i_mb i) (po_rd ro) (i_mrv i && po_lvld ro)
           (pick (po_lane ro) (fst (i_mr i)), snd (i_mr i))
           (po_vld wo) (po_a wo) (i_wv i && po_lvld wo)
           (place z (po_lane wo) (fst (i_w i)), place false (po_lane wo) (snd (i_w i)))
           (i_brd i) (po_vld ro) (po_a ro) (po_lvld ro && i_rrd i)).
  (** reset *)
  Definition rs_init (m1 m2 : nat -> nat) (d1 d2 : nat) : apath * apath := (ap_init m1 d1, ap_init m2 d2).
End Rsz.
Arguments rs_in : clear implicits. Arguments rs_out : clear implicits.
