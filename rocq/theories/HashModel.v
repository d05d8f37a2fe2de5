(** Model of hwtLib/mem/hashTableCoreWithRam.py [HashTableCoreWithRam] (hwtLib/mem/hashTableCore.py [HashTableCore] with
    RamAsAddrDataRdVld and RamSingleClock) for LOOKUP_ID_WIDTH = 0 (with any other value the construction fails, the key buffer has no lookupId). *)
From Verif Require Import Base HsRegModel RamModel.
From Coq Require Import NArith.

Section Hash.
  (** KEY_WIDTH, DATA_WIDTH, the width of the address, LOOKUP_HASH *)
  Variables (KW DW AW : nat) (lh : bool).
  (** the function of the component CrcComb (C11 is about it) *)
  Variable hash : N -> N.
  Definition p2 (n : nat) : N := (2 ^ N.of_nat n)%N.
  (** Concat(key, data, item_vld), hashTableCore.py:161-164 *)
  Definition ht_rec (k d : N) (v : bool) : N := (k * p2 (DW + 1) + d * 2 + (if v then 1 else 0))%N.
  (** parseItem, hashTableCore.py:80-102 *)
  Definition ht_vld (x : N) : bool := N.odd x.
  Definition ht_data (x : N) : N := ((x / 2) mod p2 DW)%N.
  Definition ht_key (x : N) : N := ((x / p2 (DW + 1)) mod p2 KW)%N.
  (** the hash assigned with fit=True to a signal of the width of the address, hashTableCore.py:123,137 *)
  Definition ht_fit (k : N) : N := (hash k mod p2 AW)%N.

  (** the RAM with its connector; the buffers (HandshakedReg, latency 2) of the key and of the hash *)
  Record ht_st := mk_ht { ht_ram : rh_state N; ht_ks : list (stage N); ht_hs : list (stage N) }.
  (** lookup.vld, key; lookupRes.rd; insert.vld, hash, key, data, item_vld *)
  Record ht_in := mk_hti { hi_lv : bool; hi_key : N; hi_rr : bool; hi_iv : bool; hi_ih : N; hi_ik : N; hi_id : N; hi_ii : bool }.
  (** lookup.rd; lookupRes.vld, hash (with LOOKUP_HASH), key, data, occupied, found; insert.rd *)
  Record ht_res := mk_htr { hr_hash : option N; hr_key : N; hr_data : N; hr_occ : bool; hr_found : bool }.
  Record ht_out := mk_hto { ho_lrd : bool; ho_rv : bool; ho_res : ht_res; ho_ird : bool }.

  (** lookupLogic and insertLogic, hashTableCore.py:104-168 *)
  Definition ht_step (u : N) (s : ht_st) (i : ht_in) : ht_st * ht_out :=
    (* outputs of the buffers and of the RAM do not depend on the inputs *)
    let '(_, (_, kv, key)) := chain_step (ht_ks s) false 0%N false in
    let '(_, (_, hv0, h)) := chain_step (ht_hs s) false 0%N false in
    let hv := negb lh || hv0 in
    let dv := rs_vld (ht_ram s) in
    let x := rs_data (ht_ram s) in
    (* StreamNode(masters=[origKey, ramR.data, origHashOut], slaves=[res]) *)
    let krdy := hi_rr i && dv && hv in
    let drdy := hi_rr i && kv && hv in
    let hrdy := hi_rr i && kv && dv in
    (* ready of the inputs *)
    let '(_, (krd, _, _)) := chain_step (ht_ks s) false 0%N krdy in
    let '(_, (hrd0, _, _)) := chain_step (ht_hs s) false 0%N hrdy in
    let hrd := negb lh || hrd0 in
    let addr := N.to_nat (ht_fit (hi_key i)) in
    let wdata := ht_rec (hi_ik i) (hi_id i) (hi_ii i) in
    (* StreamNode(masters=[lookup], slaves=[ramR.addr, origKeyIn, origHashIn]) *)
    let avld := hi_lv i && krd && hrd in
    let '(ram', ro) := rh_step u (ht_ram s) (mk_ri avld addr drdy (hi_iv i) (N.to_nat (hi_ih i)) wdata) in
    let ard := ro_ard ro in
    let '(ks', _) := chain_step (ht_ks s) (hi_lv i && ard && hrd) (hi_key i) krdy in
    let '(hs', _) := chain_step (ht_hs s) (hi_lv i && ard && krd && lh) (ht_fit (hi_key i)) hrdy in
    (mk_ht ram' ks' hs',
     mk_hto (ard && krd && hrd) (kv && dv && hv)
            (mk_htr (if lh then Some h else None) (ht_key x) (ht_data x) (ht_vld x) ((key =? ht_key x)%N && ht_vld x)) (ro_wrd ro)).
  (** the memory contains the items [it]: key, data, item_vld; data registers have no reset value *)
  Definition ht_init (it : nat -> N * N * bool) (a b c : N) (e : nat -> N) : ht_st :=
    mk_ht (rh_init (fun n => let '(k, d, v) := it n in ht_rec k d v) a b c)
          [mk_stage KLat false (e 0); mk_stage KLat false (e 1)] [mk_stage KLat false (e 2); mk_stage KLat false (e 3)].
End Hash.
