(** Models of hwtLib/structManipulators/arrayItemGetter.py [ArrayItemGetter] and hwtLib/structManipulators/mmu_2pageLvl.py [MMU_2pageLvl]. *)
From Verif Require Import Base FifoModel RamModel.
From Coq Require Import NArith.
Open Scope N_scope.

Definition p2 (n : nat) : N := 2 ^ N.of_nat n.

(** * ArrayItemGetter *)
Section Get.
  (** ADDR_WIDTH, ITEM_WIDTH // 8, ITEMS_IN_DATA_WORD, MAX_TRANS_OVERLAP *)
  Variables (AW IB K D : nat).
  (** subIndexBits, arrayItemGetter.py:58, 87; itemAlignBits, arrayItemGetter.py:77, 88 *)
  Definition ag_sub : nat := log2ceil K.
  Definition ag_align : nat := log2ceil IB.
  (** req.addr, arrayItemGetter.py:77-78, 89-92; fitTo cuts the bits which are out of req.addr *)
  Definition ag_addr (base idx : N) : N :=
    (base + (if (K =? 1)%nat then idx * p2 ag_align else idx / p2 ag_sub * p2 (ag_align + ag_sub)) mod p2 AW) mod p2 AW.
  (** Switch over the sub index, arrayItemGetter.py:97-100 *)
  Definition ag_slice (w sub : N) : N := (w / p2 (8 * IB * N.to_nat sub)) mod p2 (8 * IB).
  (** itemSubIndexFifo *)
  Record ag_st := mk_ag { ag_f : hsf_st N }.
  (** base; index.vld, data; req.rd; r.vld, data; item.rd *)
  Record ag_in := mk_agi { gi_base : N; gi_iv : bool; gi_idx : N; gi_qrd : bool; gi_rv : bool; gi_r : N; gi_rd : bool }.
  (** index.rd; req: vld, addr; r.rd; item *)
  Record ag_out := mk_ago { go_ird : bool; go_req : option N; go_rrd : bool; go_item : option N }.
  (** hwImpl, arrayItemGetter.py:61-102 *)
  Definition ag_step (s : ag_st) (i : ag_in) : ag_st * ag_out :=
    if (K =? 1)%nat then
      (s, mk_ago (gi_qrd i) (if gi_iv i then Some (ag_addr (gi_base i) (gi_idx i)) else None) (gi_rd i) (if gi_rv i then Some (gi_r i) else None))
    else
      let frd := negb (f_wwait (hf (ag_f s))) in
      let '(f', fo) := hsf_step D (ag_f s) (mk_hin (gi_iv i && gi_qrd i) (gi_idx i mod p2 ag_sub) (gi_rv i && gi_rd i)) in
      (mk_ag f',
       mk_ago (gi_qrd i && frd) (if gi_iv i && frd then Some (ag_addr (gi_base i) (gi_idx i)) else None)
              (h_vld fo && gi_rd i) (if gi_rv i && h_vld fo then Some (ag_slice (gi_r i) (h_data fo)) else None)).
  Definition ag_init (m : nat -> N) (d : N) : ag_st := mk_ag (hsf_init D [] m d).
End Get.

(** * MMU_2pageLvl *)
Section Mmu.
  (** ADDR_WIDTH (VIRT_ADDR_WIDTH is the same), PAGE_OFFSET_WIDTH, LVL2_PAGE_TABLE_INDX_WIDTH, items in a word (DATA_WIDTH // ADDR_WIDTH), MAX_OVERLAP, MAX_TRANS_OVERLAP of lvl2get *)
  Variables (AW PO W2 K MO D : nat).
  Notation IB := (AW / 8)%nat.
  (** parts of the virtual address, mmu_2pageLvl.py:118-122 *)
  Definition mm_off (v : N) : N := v mod p2 PO.
  Definition mm_l2 (v : N) : N := (v / p2 PO) mod p2 W2.
  Definition mm_l1 (v : N) : N := v / p2 (W2 + PO).
  (** lvl1Storage with lvl1Converter, lvl2get, lvl2indxFifo, pageOffsetFifo, segfaultFlag *)
  Record mm_st := mk_mm { mm_ram : rh_state N; mm_get : ag_st; mm_i2 : hsf_st N; mm_po : hsf_st N; mm_flag : bool }.
  (** virtIn: vld, data; physOut.rd; req.rd; r: vld, data; lvl1Table: en & we, addr, din *)
  Record mm_in := mk_mmi { mi_vv : bool; mi_v : N; mi_prd : bool; mi_qrd : bool; mi_rv : bool; mi_r : N; mi_we : bool; mi_wa : N; mi_wd : N }.
  (** virtIn.rd; physOut; req; r.rd; segfault *)
  Record mm_out := mk_mmo { mo_vrd : bool; mo_p : option N; mo_req : option N; mo_rrd : bool; mo_seg : bool }.
  (** hwImpl, mmu_2pageLvl.py:99-177; the ready of a HandshakedFifo and the valid with the data of the RAM and of the fifos depend only on the state *)
  Definition mm_step (u : N) (s : mm_st) (i : mm_in) : mm_st * mm_out :=
    let i2rd := negb (f_wwait (hf (mm_i2 s))) in let pord := negb (f_wwait (hf (mm_po s))) in
    let i2v := ovld (mm_i2 s) in let i2d := dreg (hf (mm_i2 s)) in
    let pov := ovld (mm_po s) in let pod := dreg (hf (mm_po s)) in
    let lv := rs_vld (mm_ram s) in let ld := rs_data (mm_ram s) in
    (* connectPhyout: the ready of the item *)
    let itrd := pov && mi_prd i in
    (* connectL2Load *)
    let '(g', go) := ag_step AW IB K D (mm_get s) (mk_agi ld (lv && i2v && negb (mm_flag s)) i2d (mi_qrd i) (mi_rv i) (mi_r i) itrd) in
    let idxrd := go_ird go in
    (* connectL1Load *)
    let '(ram', ro) := rh_step u (mm_ram s) (mk_ri (mi_vv i && i2rd && pord) (N.to_nat (mm_l1 (mi_v i))) (i2v && idxrd) (mi_we i) (N.to_nat (mi_wa i)) (mi_wd i)) in
    let ard := ro_ard ro in
    let '(i2', _) := hsf_step (MO / 2) (mm_i2 s) (mk_hin (mi_vv i && ard && pord) (mm_l2 (mi_v i)) (lv && idxrd)) in
    let itv := match go_item go with Some _ => true | None => false end in
    let bad := match go_item go with Some d => N.odd d | None => false end in
    let '(po', _) := hsf_step MO (mm_po s) (mk_hin (mi_vv i && ard && i2rd) (mm_off (mi_v i)) (itv && mi_prd i)) in
    (* segfaultChecker *)
    let flag' := if (lv && N.odd ld) || bad then true else mm_flag s in
    (mk_mm ram' g' i2' po' flag',
     mk_mmo (i2rd && ard && pord)
       (match go_item go with Some d => if pov && negb (mm_flag s || N.odd d) then Some (d / p2 PO * p2 PO + pod) else None | None => None end)
       (go_req go) (go_rrd go) (mm_flag s)).
  Definition mm_init (tbl : nat -> N) (a b c : N) (mg : nat -> N) (g : N) (mi : nat -> N) (mo : nat -> N) : mm_st :=
    mk_mm (rh_init tbl a b c) (ag_init D mg g) (hsf_init (MO / 2) [] mi g) (hsf_init MO [] mo g) false.
End Mmu.
