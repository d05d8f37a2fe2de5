(** Models of the bus endpoints: hwtLib/abstract/busEndpoint.py [BusEndpoint] with hwtLib/amba/axiLite_comp/endpoint.py [AxiLiteEndpoint],
    hwtLib/cesnet/mi32/endpoint.py [Mi32Endpoint], hwtLib/mem/bramPortEndpoint.py [BramPortEndpoint], hwtLib/avalon/endpoint.py [AvalonMmEndpoint]
    and hwtLib/xilinx/ipif/endpoint.py [IpifEndpoint].

    The template of the address space is processed by TransTmpl and FrameTmpl of hwt; here their result is the configuration. *)
From Verif Require Import Base.

(** a bit vector, the lowest bit first; [None] is an undefined bit *)
Definition bits := list bool.
Definition xbits := list (option bool).
(** a part of a bus word: startOfPart, endOfPart (bit addresses), the field ([None] = padding) *)
Record part := mk_part { pt_s : nat; pt_e : nat; pt_f : option nat }.
(** ADDR_WIDTH; bits of one address unit (_getAddrStep); address units in a word (DATA_WIDTH // step); _ADDR_MIN, _ADDR_MAX;
    fields mapped to registers: bit address, width, is it RegCntrl (not a constant signal); _directly_mapped_words; _bramPortMapped: address, number of items *)
Record epcfg := mk_ep { e_aw : nat; e_step : nat; e_wu : nat; e_min : nat; e_max : nat;
  e_nf : nat; e_base : nat -> nat; e_width : nat -> nat; e_wr : nat -> bool; e_words : list (nat * list part); e_brams : list (nat * nat) }.

Section Ep.
  Variable c : epcfg.
  Definition e_dw : nat := e_wu c * e_step c.
  (** isInMyAddrRange, busEndpoint.py:215-216 *)
  Definition in_my_range (a : nat) : bool := (e_min c <=? a) && (a <? e_max c).
  Definition bit_length (n : nat) : nat := if n =? 0 then 0 else S (Nat.log2 n).
  Definition is_pow2 (n : nat) : bool := 2 ^ Nat.log2 n =? n.
  (** AddressStepTranslation.align_bits, addressStepTranslation.py:20-26 *)
  Definition ep_align : nat := if e_wu c =? 1 then 0 else log2ceil (e_wu c - 1).
  (** propagateAddr, busEndpoint.py:296-357, for the array at address [b] with [n] items of the size of a bus word: is the address in the range and the address in the array *)
  Definition ar_aligned (bn : nat * nat) : bool := ((fst bn * e_step c) mod (snd bn * e_dw) =? 0) && is_pow2 (snd bn * e_dw).
  Definition ar_hit (bn : nat * nat) (a : nat) : bool :=
    let L := bit_length (snd bn - 1) + ep_align in
    if ar_aligned bn then if e_aw c - L =? 0 then true else a / 2 ^ L =? fst bn / 2 ^ L
    else (fst bn <=? a) && (a <? fst bn + snd bn * e_wu c).
  Definition ar_idx (bn : nat * nat) (a : nat) : nat :=
    let tmp := if ar_aligned bn then a else (a + 2 ^ e_aw c - fst bn) mod 2 ^ e_aw c in
    if bit_length (snd bn - 1) =? 0 then 0 else (tmp / 2 ^ ep_align) mod 2 ^ bit_length (snd bn - 1).
  (** inRange(addr, _addr, t.bitAddrEnd // ADDR_STEP) in avalon/endpoint.py:71 and ipif/endpoint.py:63 *)
  Definition ar_in (bn : nat * nat) (a : nat) : bool := (fst bn <=? a) && (a <? fst bn + snd bn * e_wu c).
  Definition bram (k : nat) : nat * nat := nth k (e_brams c) (0, 0).
  Definition brams : list nat := seq 0 (length (e_brams c)).

  (** connect_directly_mapped_read, busEndpoint.py:359-401; [None]: no case of the Switch *)
  Definition part_val (din : nat -> bits) (p : part) : xbits :=
    match pt_f p with
    | None => repeat None (pt_e p - pt_s p)
    | Some f => map Some (firstn (pt_e p - pt_s p) (skipn (pt_s p - e_base c f) (din f)))
    end.
  Definition read_direct (din : nat -> bits) (a : nat) : option xbits :=
    match find (fun w => fst w * e_wu c =? a) (e_words c) with Some w => Some (flat_map (part_val din) (snd w)) | None => None end.
  (** connect_directly_mapped_write, busEndpoint.py:403-430: dout (vld with data) of the field [f] *)
  Definition is_part_of (f : nat) (p : part) : bool := match pt_f p with Some g => f =? g | None => false end.
  Definition write_direct (en : bool) (a : nat) (d : bits) (f : nat) : option bits :=
    match find (fun wp => is_part_of f (snd wp)) (flat_map (fun w => map (fun p => (fst w, p)) (snd w)) (e_words c)) with
    | Some (w, p) => if e_wr c f && en && (a =? w * e_wu c) then Some (firstn (pt_e p - pt_s p) (skipn (pt_s p - w * e_dw) d)) else None
    | None => None
    end.

  (** the memories behind the BRAM ports: RamSingleClock with a port for reads and writes, ram.py:121-131: contents and dout ([None] = undefined) *)
  Record mems := mk_mems { m_mem : nat -> nat -> bits; m_dout : nat -> option bits }.
  (** en, we, addr, din *)
  Record mport := mk_mp { mp_en : bool; mp_we : bool; mp_addr : nat; mp_din : bits }.
  Definition mems_step (m : mems) (p : nat -> mport) : mems :=
    mk_mems (fun k => if mp_en (p k) && mp_we (p k) then upd (m_mem m k) (mp_addr (p k)) (mp_din (p k)) else m_mem m k)
            (fun k => if mp_en (p k) then Some (m_mem m k (mp_addr (p k))) else None).
  Definition xdata (o : option bits) : xbits := match o with Some d => map Some d | None => repeat None e_dw end.

  (** * AxiLiteEndpoint *)
  Inductive wst := WIdle | WData | WResp.
  Inductive rst := RIdle | RBram | RData.
  (** wSt, awAddr; rSt, arAddr; rdataReg, bramRdIndx; the memories *)
  Record al_st := mk_al { al_w : wst; al_aw : nat; al_r : rst; al_ar : nat; al_rd : option bits; al_ix : nat; al_m : mems }.
  (** aw.valid, addr; w.valid, data; b.ready; ar.valid, addr; r.ready; din of the fields *)
  Record al_in := mk_ali { li_awv : bool; li_aw : nat; li_wv : bool; li_w : bits; li_b : bool; li_arv : bool; li_ar : nat; li_r : bool; li_din : nat -> bits }.
  (** aw.ready, w.ready, b: valid, is resp OKAY; ar.ready; r: valid, is resp OKAY, data; dout of the fields *)
  Record al_out := mk_alo { lo_aw : bool; lo_w : bool; lo_b : option bool; lo_ar : bool; lo_r : option (bool * xbits); lo_dout : nat -> option bits }.
  (** writePart, writeRespPart, readPart, axiLite_comp/endpoint.py:43-173 *)
  Definition al_step (s : al_st) (i : al_in) : al_st * al_out :=
    let awrd := match al_w s with WIdle => true | _ => false end in
    let wrd := match al_w s with WData => true | _ => false end in
    let w_hs := li_wv i && wrd in
    let arrd := match al_r s with RIdle => true | _ => false end in
    let pw := fun k => w_hs && ar_hit (bram k) (al_aw s) in
    let port := fun k => mk_mp ((li_arv i && ar_hit (bram k) (li_ar i)) || pw k) (pw k)
      (if pw k then ar_idx (bram k) (al_aw s) else if arrd then ar_idx (bram k) (li_ar i) else ar_idx (bram k) (al_ar s)) (li_w i) in
    let isBram := existsb (fun k => ar_hit (bram k) (li_ar i)) brams in
    let w' := match al_w s with
      | WIdle => if li_awv i then WData else WIdle
      | WData => if li_wv i then WResp else WData
      | WResp => if li_b i then WIdle else WResp
      end in
    let r' := match al_r s with
      | RIdle => if li_arv i && negb isBram && negb w_hs then RData else if li_arv i && isBram && negb w_hs then RBram else RIdle
      | RBram => if negb w_hs then RData else RBram
      | RData => if li_r i then RIdle else RData
      end in
    let ix' := if arrd then match find (fun k => ar_hit (bram k) (li_ar i)) brams with Some k => k | None => al_ix s end else al_ix s in
    let rd' := if al_ix s <? length (e_brams c) then m_dout (al_m s) (al_ix s) else al_rd s in
    let data := match read_direct (li_din i) (al_ar s) with Some v => v | None => xdata (match e_brams c with [] => None | _ :: _ => al_rd s end) end in
    (mk_al w' (if awrd && li_awv i then li_aw i else al_aw s) r' (if li_arv i && arrd then li_ar i else al_ar s) rd' ix' (mems_step (al_m s) port),
     mk_alo awrd wrd (match al_w s with WResp => Some (in_my_range (al_aw s)) | _ => None end) (arrd && negb w_hs)
       (match al_r s with RData => Some (in_my_range (al_ar s), data) | _ => None end) (write_direct w_hs (al_aw s) (li_w i))).
  (** registers without reset value and contents of the memories *)
  Definition al_init (aw ar : nat) (rd : option bits) (ix : nat) (m : nat -> nat -> bits) : al_st := mk_al WIdle aw RIdle ar rd ix (mk_mems m (fun _ => None)).

  (** * Mi32Endpoint *)
  (** readReg, rd_delayed, readBramIndx; the memories *)
  Record me_st := mk_me { me_reg : xbits; me_rdy : bool; me_ix : nat; me_m : mems }.
  (** rd, wr, addr, dwr; din of the fields *)
  Record me_in := mk_mei { mi_rd : bool; mi_wr : bool; mi_addr : nat; mi_dwr : bits; mi_din : nat -> bits }.
  (** ardy, drdy with drd; dout of the fields *)
  Record me_out := mk_meo { mo_ardy : bool; mo_drd : option xbits; mo_dout : nat -> option bits }.
  Definition ix_next (a : nat) : nat := match find (fun k => ar_hit (bram k) a) brams with Some k => k | None => length (e_brams c) end.
  (** hwImpl, mi32/endpoint.py:32-83 *)
  Definition me_step (s : me_st) (i : me_in) : me_st * me_out :=
    let port := fun k => mk_mp ((mi_rd i || mi_wr i) && ar_hit (bram k) (mi_addr i)) (mi_wr i && ar_hit (bram k) (mi_addr i)) (ar_idx (bram k) (mi_addr i)) (mi_dwr i) in
    let reg' := if mi_rd i then match read_direct (mi_din i) (mi_addr i) with Some v => v | None => me_reg s end else me_reg s in
    let drd := if me_ix s <? length (e_brams c) then xdata (m_dout (me_m s) (me_ix s)) else me_reg s in
    (mk_me reg' (mi_rd i && in_my_range (mi_addr i)) (ix_next (mi_addr i)) (mems_step (me_m s) port),
     mk_meo true (if me_rdy s then Some drd else None) (write_direct (mi_wr i) (mi_addr i) (mi_dwr i))).
  Definition me_init (r : xbits) (ix : nat) (m : nat -> nat -> bits) : me_st := mk_me r false ix (mk_mems m (fun _ => None)).

  (** * BramPortEndpoint *)
  Record be_st := mk_be { be_reg : xbits; be_ix : nat; be_m : mems }.
  (** en, we, addr, din; din of the fields *)
  Record be_in := mk_bei { bi_en : bool; bi_we : bool; bi_addr : nat; bi_d : bits; bi_din : nat -> bits }.
  (** dout; dout of the fields *)
  Record be_out := mk_beo { bo_dout : xbits; bo_f : nat -> option bits }.
  (** hwImpl, bramPortEndpoint.py:30-74 *)
  Definition be_step (s : be_st) (i : be_in) : be_st * be_out :=
    let port := fun k => mk_mp (bi_en i && ar_hit (bram k) (bi_addr i)) (bi_en i && bi_we i && ar_hit (bram k) (bi_addr i)) (ar_idx (bram k) (bi_addr i)) (bi_d i) in
    let reg' := if bi_en i then match read_direct (bi_din i) (bi_addr i) with Some v => v | None => be_reg s end else be_reg s in
    (mk_be reg' (ix_next (bi_addr i)) (mems_step (be_m s) port),
     mk_beo (if be_ix s <? length (e_brams c) then xdata (m_dout (be_m s) (be_ix s)) else be_reg s) (write_direct (bi_en i && bi_we i) (bi_addr i) (bi_d i))).
  Definition be_init (r : xbits) (ix : nat) (m : nat -> nat -> bits) : be_st := mk_be r ix (mk_mems m (fun _ => None)).

  (** * AvalonMmEndpoint *)
  (** wasInAddrRange, wasWr, rReq, rAddr, wasMyAddr of each memory; the memories *)
  Record av_st := mk_av { av_in : bool; av_wr : bool; av_req : bool; av_addr : nat; av_my : nat -> bool; av_m : mems }.
  (** read, write, address, writeData; din of the fields *)
  Record av_i := mk_avi { vi_rd : bool; vi_wr : bool; vi_addr : nat; vi_d : bits; vi_din : nat -> bits }.
  (** waitRequest, readDataValid with readData, writeResponseValid, is response OKAY; dout of the fields *)
  Record av_o := mk_avo { vo_wait : bool; vo_rd : option xbits; vo_wrv : bool; vo_ok : bool; vo_dout : nat -> option bits }.
  (** hwImpl, avalon/endpoint.py:34-95; the chain of If is built from the last memory, so the first one has the priority *)
  Definition av_step (s : av_st) (i : av_i) : av_st * av_o :=
    let port := fun k => mk_mp (ar_in (bram k) (vi_addr i) && (vi_rd i || vi_wr i)) (ar_in (bram k) (vi_addr i) && vi_wr i) (ar_idx (bram k) (vi_addr i)) (vi_d i) in
    let data := match read_direct (vi_din i) (av_addr s) with
      | Some v => v
      | None => match find (av_my s) brams with Some k => xdata (m_dout (av_m s) k) | None => repeat None e_dw end end in
    (mk_av (in_my_range (vi_addr i)) (vi_wr i) (vi_rd i) (if vi_rd i then vi_addr i else av_addr s) (fun k => ar_in (bram k) (vi_addr i)) (mems_step (av_m s) port),
     mk_avo false (if av_req s then Some data else None) (av_wr s) (av_in s) (write_direct (vi_wr i) (vi_addr i) (vi_d i))).
  Definition av_init (ir : bool) (a : nat) (my : nat -> bool) (m : nat -> nat -> bits) : av_st := mk_av ir false false a my (mk_mems m (fun _ => None)).

  (** * IpifEndpoint *)
  Inductive ist := IIdle | IWAck | IRData.
  Record ip_st := mk_ip { ip_s : ist; ip_m : mems }.
  (** bus2ip_cs, rnw, addr, data; din of the fields *)
  Record ip_in := mk_ipi { pi_cs : bool; pi_rnw : bool; pi_addr : nat; pi_d : bits; pi_din : nat -> bits }.
  (** ip2bus_rdack, wrack, data (error is 0); dout of the fields *)
  Record ip_out := mk_ipo { po_rdack : bool; po_wrack : bool; po_d : xbits; po_dout : nat -> option bits }.
  (** hwImpl, ipif/endpoint.py:32-89; the state readDelay cannot be reached *)
  Definition ip_step (s : ip_st) (i : ip_in) : ip_st * ip_out :=
    let wack := match ip_s s with IWAck => true | _ => false end in
    let s' := match ip_s s with
      | IIdle => if pi_cs i && in_my_range (pi_addr i) && pi_rnw i then IRData else if pi_cs i && in_my_range (pi_addr i) && negb (pi_rnw i) then IWAck else IIdle
      | _ => IIdle
      end in
    let port := fun k => mk_mp (ar_in (bram k) (pi_addr i) && pi_cs i) (ar_in (bram k) (pi_addr i) && wack) (ar_idx (bram k) (pi_addr i)) (pi_d i) in
    let data := match read_direct (pi_din i) (pi_addr i) with
      | Some v => v
      | None => match find (fun k => ar_in (bram k) (pi_addr i)) brams with Some k => xdata (m_dout (ip_m s) k) | None => repeat None e_dw end end in
    (mk_ip s' (mems_step (ip_m s) port),
     mk_ipo (match ip_s s with IRData => true | _ => false end) wack data (write_direct (negb (pi_rnw i) && wack) (pi_addr i) (pi_d i))).
  Definition ip_init (m : nat -> nat -> bits) : ip_st := mk_ip IIdle (mk_mems m (fun _ => None)).
End Ep.
