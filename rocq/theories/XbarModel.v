(** Models of hwtLib/amba/axi_comp/interconnect: matrixAddrCrossbar.py [AxiInterconnectMatrixAddrCrossbar], matrixCrossbar.py [AxiInterconnectMatrixCrossbar],
    matrixR.py [AxiInterconnectMatrixR] and matrixW.py [AxiInterconnectMatrixW, AxiInterconnectMatrixCrossbarB]. *)
From Verif Require Import Base FifoModel HsRegModel JoinSplitModel OneHotModel EpModel.

(** the signal value [d] ([None] = undefined) equals [k] *)
Definition d_is (d : option nat) (k : nat) : bool := match d with Some x => x =? k | None => false end.
Definition some {A} (o : option A) : bool := match o with Some _ => true | None => false end.

(** the function [f] with its values below [n] kept in a list, so that a run of the model can be evaluated; it is the same function *)
Definition tab {T} (n : nat) (f : nat -> T) : nat -> T := let l := map f (seq 0 n) in fun k => match nth_error l k with Some x => x | None => f k end.

(** * AxiInterconnectMatrixCrossbar *)
Section Data.
  Context {A : Type}.
  (** INPUT_CNT, len(OUTPUTS); is the input in OUTPUTS[output]; get_last: matrixCrossbar.py:89-90, matrixW.py:21-23 *)
  Variables (NI NO : nat) (C : nat -> nat -> bool) (lst : A -> bool).
  (** which of order_dout_index_for_din_in and order_din_index_for_dout_in exist, their vld and data *)
  Variables (hi ho : nat -> bool) (oi oo : nat -> bool * option nat).
  (** dataIn: data if valid; dataOut: ready *)
  Variables (dv : nat -> option A) (ordy : nat -> bool).

  Definition c_last (i : nat) : bool := match dv i with Some w => lst w | None => false end.
  (** handler_din_rd, matrixCrossbar.py:92-122: selected_dataOut_ready, dataIn.ready, order_dout_index_for_din_in.rd *)
  Definition c_sel (i : nat) : bool :=
    any (map (fun o => C o i && ordy o && (if hi i then d_is (snd (oi i)) o else true) && (if ho o then d_is (snd (oo o)) i && fst (oo o) else true)) (seq 0 NO)).
  Definition c_irdy (i : nat) : bool := if hi i then fst (oi i) && c_sel i else c_sel i.
  Definition c_oird (i : nat) : bool := some (dv i) && c_last i && c_sel i.
  (** handler_dout_vld, matrixCrossbar.py:124-172: selected_dataIn_valid, dataOut.valid, selected_dataIn_last, order_din_index_for_dout_in.rd *)
  Definition c_selv (o : nat) : bool :=
    any (map (fun i => C o i && some (dv i) && (if ho o then d_is (snd (oo o)) i else true) && (if hi i then fst (oi i) && d_is (snd (oi i)) o else true)) (seq 0 NI)).
  Definition c_ov (o : nat) : bool := if ho o then c_selv o && fst (oo o) else c_selv o.
  Definition c_sell (o : nat) : bool :=
    any (map (fun i => C o i && some (dv i) && c_last i && (if ho o then fst (oo o) && d_is (snd (oo o)) i else true)) (seq 0 NI)).
  Definition c_oord (o : nat) : bool := c_selv o && c_sell o && ordy o.
  (** handler_data_mux, matrixCrossbar.py:174-197; the cases are all inputs; [None] = undefined (the data of an input which is not valid are undefined as well) *)
  Definition c_data (o : nat) : option A :=
    if ho o then match snd (oo o) with Some i => if i <? NI then dv i else None | None => None end
    else match filter (C o) (seq 0 NI) with i :: _ => dv i | [] => None end.
End Data.

Section Xbar.
  (** len(MASTERS), len(SLAVES), ADDR_WIDTH, MAX_TRANS_OVERLAP; is the slave in MASTERS[master]; SLAVES (address, size) *)
  Variables (NM NS AW DEPTH : nat) (conn : nat -> nat -> bool) (region : nat -> nat * nat).
  (** [B]: the signals of an address channel other than addr, valid and ready *)
  Context {A B : Type}.

  Definition ms : list nat := seq 0 NM.
  Definition ss : list nat := seq 0 NS.
  (** order_s_index_for_m_data_out of a master and order_m_index_for_s_data_out of a slave exist, matrixAddrCrossbar.py:65-85 with _masters_for_slave, matrixCrossbar.py:31-37 *)
  Definition multi_s (m : nat) : bool := 1 <? length (filter (conn m) ss).
  Definition multi_m (s : nat) : bool := 1 <? length (filter (fun m => conn m s) ms).
  (** propagateAddr with the template of an array of bytes, matrixAddrCrossbar.py:105-109 *)
  Definition dec_cfg : epcfg := mk_ep AW 8 1 0 0 0 (fun _ => 0) (fun _ => 0) (fun _ => false) [] [].

  (** * AxiInterconnectMatrixAddrCrossbar *)
  Section Addr.
    (** the priority registers; the channels of the masters behind the buffers: valid, payload; ready of the slaves; ready of order_s_index_for_m_data_out, order_m_index_for_s_data_out *)
    Variables (prio : nat -> list bool) (av : nat -> bool) (ad : nat -> nat * B) (srdy osr omr : nat -> bool).
    (** propagate_addr, matrixAddrCrossbar.py:87-112 *)
    Definition x_en (m s : nat) : bool := conn m s && ar_hit dec_cfg (region s) (fst (ad m)).
    (** master_vld_slave, matrixAddrCrossbar.py:160-180 *)
    Definition x_vld (m s : nat) : bool := av m && x_en m s && (if multi_s m then osr m else true).
    (** isSelectedFlags, matrixAddrCrossbar.py:184-185; with vld, :188-191, :212-220 *)
    Definition x_arb (s m : nat) : bool := nth m (is_selected (prio s) (map (fun m => x_vld m s) ms)) false && x_vld m s.
    (** slv_addr.valid, matrixAddrCrossbar.py:192-195 *)
    Definition x_svalid (s : nat) : bool := any (map (x_arb s) ms) && (if multi_m s then omr s else true).
    (** ready_for_master, matrixAddrCrossbar.py:197-209; ready of the master, :257-261 *)
    Definition x_mrd0 (m : nat) : bool := any (map (fun s => conn m s && (x_arb s m && srdy s && (if multi_m s then omr s else true))) ss).
    Definition x_mrd (m : nat) : bool := x_mrd0 m && (if multi_s m then osr m else true).
    (** order_m_index_for_s_data_out: vld, data, matrixAddrCrossbar.py:226-230 *)
    Definition x_omv (s : nat) : bool := any (map (x_arb s) ms) && srdy s.
    Definition x_omd (s : nat) : option nat := onehot_to_bin (map (x_arb s) ms).
    (** order_s_index_for_m_data_out: vld, data, matrixAddrCrossbar.py:252-257 *)
    Definition x_osv (m : nat) : bool := x_mrd0 m && av m.
    Definition x_osd (m : nat) : option nat := onehot_to_bin (map (x_en m) ss).
    (** addr_handler_build_addr_mux, matrixAddrCrossbar.py:114-139, 232-244; [None] = undefined *)
    Definition x_saddr (s : nat) : option (nat * B) :=
      switch (map (fun m => (av m && (x_arb s m && srdy s), Some (ar_idx dec_cfg (region s) (fst (ad m)), snd (ad m)))) (filter (fun m => conn m s) ms)) None.
  End Addr.

  (** vld and data of dataOut and the ready of dataIn of a HandshakedFifo depend only on its state *)
  Definition f_out (f : hsf_st (option nat)) : bool * option nat := (ovld f, dreg (hf f)).
  Definition f_rdy (f : hsf_st (option nat)) : bool := negb (f_wwait (hf f)).
  Definition f_next (f : hsf_st (option nat)) (v : bool) (d : option nat) (rd : bool) : hsf_st (option nat) := fst (hsf_step DEPTH f (mk_hin v d rd)).

  (** * AxiInterconnectMatrixR *)
  (** the buffers of ar (matrixAddrCrossbar.py:265-267), the priority registers, order_s_index_for_m_data, order_m_index_for_s_data; the last two are used only where they exist *)
  Record xr_st := mk_xr { xr_buf : nat -> stage (nat * B); xr_prio : nat -> list bool; xr_fs : nat -> hsf_st (option nat); xr_fm : nat -> hsf_st (option nat) }.
  (** masters: ar.valid, ar, r.ready; slaves: ar.ready, r *)
  Record xr_in := mk_xri { ri_arv : nat -> bool; ri_ar : nat -> nat * B; ri_rrd : nat -> bool; ri_ard : nat -> bool; ri_r : nat -> option A }.
  (** masters: ar.ready, r.valid, r; slaves: ar.valid, ar, r.ready *)
  Record xr_out := mk_xro { ro_ard : nat -> bool; ro_rv : nat -> bool; ro_r : nat -> option A; ro_arv : nat -> bool; ro_ar : nat -> option (nat * B); ro_rrd : nat -> bool }.
  Variable lst : A -> bool.
  (** hwImpl, matrixR.py:71-96 *)
  Definition xr_step (q : xr_st) (i : xr_in) : xr_st * xr_out :=
    let av := fun m => occ (xr_buf q m) in let ad := fun m => sdat (xr_buf q m) in
    let osr := fun m => f_rdy (xr_fs q m) in let omr := fun s => f_rdy (xr_fm q s) in
    let oi := fun s => f_out (xr_fm q s) in let oo := fun m => f_out (xr_fs q m) in
    let mrd := x_mrd (xr_prio q) av ad (ri_ard i) osr omr in
    (mk_xr (tab NM (fun m => stage_next (xr_buf q m) (ri_arv i m) (ri_ar i m) (mrd m)))
           (tab NS (fun s => rol1 (xr_prio q s)))
           (tab NM (fun m => f_next (xr_fs q m) (x_osv (xr_prio q) av ad (ri_ard i) osr omr m) (x_osd ad m) (c_oord NS conn lst multi_m multi_s oi oo (ri_r i) (ri_rrd i) m)))
           (tab NS (fun s => f_next (xr_fm q s) (x_omv (xr_prio q) av ad (ri_ard i) osr s) (x_omd (xr_prio q) av ad osr s) (c_oird NM conn lst multi_m multi_s oi oo (ri_r i) (ri_rrd i) s))),
     mk_xro (fun m => stage_rd (xr_buf q m) (mrd m))
            (c_ov NS conn multi_m multi_s oi oo (ri_r i)) (c_data NS conn multi_s oo (ri_r i))
            (x_svalid (xr_prio q) av ad osr omr) (x_saddr (xr_prio q) av ad (ri_ard i) osr)
            (c_irdy NM conn multi_m multi_s oi oo (ri_rrd i))).
  (** reset; the contents of the registers without a reset value are arbitrary *)
  Definition xr_init (d : nat -> nat * B) (fs fm : nat -> (nat -> option nat) * option nat) : xr_st :=
    mk_xr (fun m => mk_stage KLat false (d m)) (fun _ => prio_init NM)
          (fun m => hsf_init DEPTH [] (fst (fs m)) (snd (fs m))) (fun s => hsf_init DEPTH [] (fst (fm s)) (snd (fm s))).

  (** * AxiInterconnectMatrixW *)
  (** the buffers of aw, the priority registers; order_s_index_for_m_data, order_m_index_for_s_data, order_s_index_for_m_b, order_m_index_for_s_b;
      the buffers of w of the masters and aw of the slaves which exist if AW_AND_W_WORD_TOGETHER *)
  Record xw_st := mk_xw { xw_buf : nat -> stage (nat * B); xw_prio : nat -> list bool;
    xw_fsw : nat -> hsf_st (option nat); xw_fmw : nat -> hsf_st (option nat); xw_fsb : nat -> hsf_st (option nat); xw_fmb : nat -> hsf_st (option nat);
    xw_wb : nat -> stage A; xw_ab : nat -> stage (option (nat * B)) }.
  Context {R : Type}.
  (** masters: aw.valid, aw, w.valid, w, b.ready; slaves: aw.ready, w.ready, b *)
  Record xw_in := mk_xwi { wi_awv : nat -> bool; wi_aw : nat -> nat * B; wi_wv : nat -> bool; wi_w : nat -> A; wi_brd : nat -> bool;
    wi_ard : nat -> bool; wi_wrd : nat -> bool; wi_b : nat -> option R }.
  (** masters: aw.ready, w.ready, b.valid, b; slaves: aw.valid, aw, w.valid, w, b.ready *)
  Record xw_out := mk_xwo { wo_ard : nat -> bool; wo_wrd : nat -> bool; wo_bv : nat -> bool; wo_b : nat -> option R;
    wo_awv : nat -> bool; wo_aw : nat -> option (nat * B); wo_wv : nat -> bool; wo_w : nat -> option A; wo_brd : nat -> bool }.
  Variable tog : bool. (** AW_AND_W_WORD_TOGETHER *)
  (** an Axi4SReg or a wire *)
  Definition b_rd {T} (q : stage T) (rd : bool) : bool := if tog then stage_rd q rd else rd.
  Definition b_vld {T} (q : stage T) (v : bool) : bool := if tog then occ q else v.
  Definition b_dat {T} (q : stage T) (d : T) : T := if tog then sdat q else d.
  (** hwImpl, matrixW.py:102-173; the split of the orders is HsSplitCopy *)
  Definition xw_step (q : xw_st) (i : xw_in) : xw_st * xw_out :=
    let av := fun m => occ (xw_buf q m) in let ad := fun m => sdat (xw_buf q m) in
    let osr := fun m => f_rdy (xw_fsw q m) && f_rdy (xw_fsb q m) in let omr := fun s => f_rdy (xw_fmw q s) && f_rdy (xw_fmb q s) in
    let srdy := fun s => b_rd (xw_ab q s) (wi_ard i s) in
    let mrd := x_mrd (xw_prio q) av ad srdy osr omr in
    let osv := x_osv (xw_prio q) av ad srdy osr omr in let osd := x_osd ad in
    let omv := x_omv (xw_prio q) av ad srdy osr in let omd := x_omd (xw_prio q) av ad osr in
    let sv := x_svalid (xw_prio q) av ad osr omr in let sa := x_saddr (xw_prio q) av ad srdy osr in
    let wv := fun m => if b_vld (xw_wb q m) (wi_wv i m) then Some (b_dat (xw_wb q m) (wi_w i m)) else None in
    let swi := fun m => f_out (xw_fsw q m) in let mwo := fun s => f_out (xw_fmw q s) in
    let mbi := fun s => f_out (xw_fmb q s) in let sbo := fun m => f_out (xw_fsb q m) in
    let C := fun s m => conn m s in
    let bl := fun _ : R => true in
    let wrd := c_irdy NS C multi_s multi_m swi mwo (wi_wrd i) in
    (mk_xw (tab NM (fun m => stage_next (xw_buf q m) (wi_awv i m) (wi_aw i m) (mrd m)))
           (tab NS (fun s => rol1 (xw_prio q s)))
           (tab NM (fun m => f_next (xw_fsw q m) (osv m && f_rdy (xw_fsb q m)) (osd m) (c_oird NS C lst multi_s multi_m swi mwo wv (wi_wrd i) m)))
           (tab NS (fun s => f_next (xw_fmw q s) (omv s && f_rdy (xw_fmb q s)) (omd s) (c_oord NM C lst multi_s multi_m swi mwo wv (wi_wrd i) s)))
           (tab NM (fun m => f_next (xw_fsb q m) (osv m && f_rdy (xw_fsw q m)) (osd m) (c_oord NS conn bl multi_m multi_s mbi sbo (wi_b i) (wi_brd i) m)))
           (tab NS (fun s => f_next (xw_fmb q s) (omv s && f_rdy (xw_fmw q s)) (omd s) (c_oird NM conn bl multi_m multi_s mbi sbo (wi_b i) (wi_brd i) s)))
           (tab NM (fun m => stage_next (xw_wb q m) (wi_wv i m) (wi_w i m) (wrd m)))
           (tab NS (fun s => stage_next (xw_ab q s) (sv s) (sa s) (wi_ard i s))),
     mk_xwo (fun m => stage_rd (xw_buf q m) (mrd m)) (fun m => b_rd (xw_wb q m) (wrd m))
            (c_ov NS conn multi_m multi_s mbi sbo (wi_b i)) (c_data NS conn multi_s sbo (wi_b i))
            (fun s => b_vld (xw_ab q s) (sv s)) (fun s => b_dat (xw_ab q s) (sa s))
            (c_ov NM C multi_s multi_m swi mwo wv) (c_data NM C multi_m mwo wv)
            (c_irdy NM conn multi_m multi_s mbi sbo (wi_brd i))).
  Definition xw_init (d : nat -> nat * B) (fsw fmw fsb fmb : nat -> (nat -> option nat) * option nat) (w : nat -> A) (a : nat -> option (nat * B)) : xw_st :=
    let fi := fun f (k : nat) => hsf_init DEPTH [] (fst (f k)) (snd (f k)) in
    mk_xw (fun m => mk_stage KLat false (d m)) (fun _ => prio_init NM) (fi fsw) (fi fmw) (fi fsb) (fi fmb) (fun m => mk_stage KLat false (w m)) (fun s => mk_stage KLat false (a s)).
End Xbar.
Arguments xr_st : clear implicits.
Arguments xr_in : clear implicits.
Arguments xr_out : clear implicits.
Arguments xw_st : clear implicits.
Arguments xw_in : clear implicits.
Arguments xw_out : clear implicits.
