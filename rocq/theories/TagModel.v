(** Model of hwtLib/amba/axi_comp/cache/tag_array.py [AxiCacheTagArray] (one update port, PORT_CNT lookup ports) and of
    hwtLib/amba/axi_comp/cache/addrTypeConfig.py [CacheAddrTypeConfig], over the RAM of RamModel.v. A byte is its bits. *)
From Verif Require Import Base RamModel OneHotModel.

(** parameters, addrTypeConfig.py:34-38, tag_array.py:60-62 *)
Record tcfg := mk_tc { ADDR_WIDTH : nat; CACHE_LINE_SIZE : nat; CACHE_LINE_CNT : nat; WAY_CNT : nat }.
Section Tag.
  Context (c : tcfg) {I : Type}.
  (** addrTypeConfig.py:40-43 [_compupte_tag_index_offset_widths] *)
  Definition OFFSET_W := log2ceil (CACHE_LINE_SIZE c).
  Definition INDEX_W := log2ceil (CACHE_LINE_CNT c / WAY_CNT c).
  Definition TAG_W := ADDR_WIDTH c - INDEX_W - OFFSET_W.
  (** addrTypeConfig.py:53-57 [parse_addr] *)
  Definition tag_of (a : nat) : nat := a / 2 ^ (INDEX_W + OFFSET_W).
  Definition index_of (a : nat) : nat := (a / 2 ^ OFFSET_W) mod 2 ^ INDEX_W.
  (** configurations which elaborate: the assertion of addrTypeConfig.py:44-45; widths of tag_mem.addr and index (tag_array.py:144, 168)
      and of lookupRes.way and oneHotToBin (tag_array.py:46, 251) have to agree; way_en exists only for more ways (tag_array.py:67-68, 159) *)
  Definition cfg_ok : bool :=
    (1 <=? TAG_W) && (log2ceil (CACHE_LINE_CNT c / WAY_CNT c - 1) =? INDEX_W) &&
    (2 <=? WAY_CNT c) && (log2ceil (WAY_CNT c - 1) =? log2ceil (WAY_CNT c)).
  (** size of tag_record_t in bytes: tag, valid, padding to a byte; tag_array.py:107-120 *)
  Definition REC_B : nat := (TAG_W + 1) / 8 + (if (TAG_W + 1) mod 8 =? 0 then 0 else 1).

  (** update[0]: vld, addr, delete, way_en (bit 0 first) *)
  Record upd_in := mk_u { u_vld : bool; u_addr : nat; u_del : bool; u_way : list bool }.
  (** inputs of a lookup port: lookup.vld, id, addr, lookupRes.rd *)
  Record lk_in := mk_l { l_vld : bool; l_id : I; l_addr : nat; l_rrd : bool }.
  (** outputs: lookup.rd, lookupRes.vld, id, addr, found, way, tags (valid and bits of tag for each way) *)
  Record lk_out := mk_lo { o_rd : bool; o_vld : bool; o_id : I; o_addr : nat; o_found : bool; o_way : option nat; o_tags : list (bool * list bool) }.
  (** lookup_tmp, tag_array.py:192-200 *)
  Record lk_reg := mk_lr { t_vld : bool; t_id : I; t_addr : nat }.
  (** content and outputs of tag_mem; update_tmp; lookup_tmp of each port *)
  Record tag_state := mk_ts { ts_ram : ram_state (nat -> bool); ts_upd : upd_in; ts_lk : list lk_reg }.

  (** tag_mem.PORT_CNT, HAS_BE; tag_array.py:147-151 *)
  Definition mem_ports (n : nat) : list port_cfg := mk_pc false true true :: repeat (mk_pc true false true) n.

  (** bit [j] of tag_record, tag_array.py:172-176; [pad] are the undefined bits of the padding *)
  Definition rec_bit (pad : nat -> bool) (u : upd_in) (j : nat) : bool :=
    if j <? TAG_W then Nat.testbit (tag_of (u_addr u)) j else if j =? TAG_W then negb (u_del u) else pad j.
  (** drive of tag_mem_port_w, tag_array.py:165-184 *)
  Definition write_port (pad : nat -> bool) (u : upd_in) : port_in (nat -> bool) :=
    mk_pi (u_vld u) (index_of (u_addr u)) (flat_map (fun w => repeat (nth w (u_way u) false) REC_B) (seq 0 (WAY_CNT c)))
          (fun b k => rec_bit pad u (8 * (b mod REC_B) + k)).

  (** bit [j] of record [w] of dout, tag_array.py:213; valid, tag *)
  Definition word_bit (d : nat -> nat -> bool) (w j : nat) : bool := d (w * REC_B + j / 8) (j mod 8).
  Definition t_valid (d : nat -> nat -> bool) (w : nat) : bool := word_bit d w TAG_W.
  Definition t_tag (d : nat -> nat -> bool) (w : nat) : list bool := map (word_bit d w) (seq 0 TAG_W).
  (** t.tag._eq(tag) *)
  Definition t_eq (d : nat -> nat -> bool) (w tag : nat) : bool := forallb (fun j => Bool.eqb (word_bit d w j) (Nat.testbit tag j)) (seq 0 TAG_W).

  (** tag_array.py:203-209 *)
  Definition just_updated (u : upd_in) (r : lk_reg) : bool := u_vld u && (index_of (t_addr r) =? index_of (u_addr u)).
  (** tag_array.py:214-228 *)
  Definition found_way (d : nat -> nat -> bool) (u : upd_in) (r : lk_reg) (w : nat) : bool :=
    (t_valid d w && t_eq d w (tag_of (t_addr r)) && (negb (just_updated u r) || (u_vld u && negb (nth w (u_way u) false)))) ||
    (just_updated u r && nth w (u_way u) false && negb (u_del u) && (tag_of (t_addr r) =? tag_of (u_addr u))).

  (** outputs of a lookup port, tag_array.py:235, 248-255; [und] is an undefined dout *)
  Definition lk_outs (und : nat -> nat -> bool) (u : upd_in) (r : lk_reg) (dout : option (nat -> nat -> bool)) (i : lk_in) : lk_out :=
    let d := match dout with Some d => d | None => und end in
    let found := map (found_way d u r) (seq 0 (WAY_CNT c)) in
    mk_lo (negb (t_vld r) || l_rrd i) (t_vld r) (t_id r) (t_addr r) (existsb (fun b => b) found) (onehot_to_bin found)
          (map (fun w => (t_valid d w, t_tag d w)) (seq 0 (WAY_CNT c))).
  (** next value of lookup_tmp, tag_array.py:236-240 *)
  Definition lk_next (r : lk_reg) (i : lk_in) : lk_reg :=
    let rd := negb (t_vld r) || l_rrd i in
    mk_lr (l_vld i || (t_vld r && negb (l_rrd i))) (if rd then l_id i else t_id r) (if rd then l_addr i else t_addr r).
  (** drive of tag_mem_port_r, tag_array.py:242-246 *)
  Definition read_port (r : lk_reg) (i : lk_in) : port_in (nat -> bool) :=
    let again := t_vld r && negb (l_rrd i) in
    mk_pi (l_vld i || again) (if again then index_of (t_addr r) else index_of (l_addr i)) [] (fun _ _ => false).

  (** hwImpl, tag_array.py:257-276; update_tmp: tag_array.py:154-164 *)
  Definition tag_step (pad : nat -> bool) (und : nat -> nat -> bool) (s : tag_state) (i : upd_in * list lk_in) : tag_state * list lk_out :=
    let ris := combine (ts_lk s) (snd i) in
    (mk_ts (fst (ram_step (mem_ports (length (ts_lk s))) (ts_ram s) (write_port pad (fst i) :: map (fun ri => read_port (fst ri) (snd ri)) ris)))
           (fst i) (map (fun ri => lk_next (fst ri) (snd ri)) ris),
     map (fun x => lk_outs und (ts_upd s) (fst (fst x)) (snd x) (snd (fst x))) (combine ris (tl (snd (ts_ram s))))).
  (** vld of registers is 0 after reset, the rest is undefined; the memory has no reset *)
  Definition tag_init (m : memory (nat -> bool)) (u : upd_in) (rs : list lk_reg) : tag_state :=
    mk_ts (ram_init (mem_ports (length rs)) m) (mk_u false (u_addr u) (u_del u) (u_way u)) (map (fun r => mk_lr false (t_id r) (t_addr r)) rs).
End Tag.
Arguments lk_in : clear implicits. Arguments lk_out : clear implicits. Arguments lk_reg : clear implicits. Arguments tag_state : clear implicits.
