(** Model of hwtLib/mem/cuckooHashTable.py [CuckooHashTable] for every TABLE_CNT, MAX_REINSERT and every hash functions.

    The tables are external interfaces of the component.  Here they are HashTableCores in lock step: all lookups are accepted together
    ([tables_lookup_driver]) and all results are taken together, so there is one queue of lookups on the way.  Each table accepts lookups and shows
    results when it wants (inputs [t_lrd] and [t_rv]), a shown result stays (C78_hash_table_stable), a result is the item which was in the table when the lookup was accepted, and an insert is
    accepted in each cycle without an accepted lookup (theorems C78_hash_table and C78_hash_table_live). *)
From Verif Require Import Base.
From Coq Require Import NArith.

Section Cuckoo.
  Context {D : Type}.
  (** TABLE_CNT, TABLE_SIZE // TABLE_CNT, MAX_REINSERT, MAX_LOOKUP_OVERLAP; hash function of each table *)
  Variables (TC SZ MR ML : nat).
  Variable hash : nat -> N -> nat.
  (** struct item of hashTableCore.py:32-36 *)
  Record citem := mk_ci { ci_key : N; ci_data : D; ci_vld : bool }.
  Inductive origin := OInsert | OLookup | ODelete.
  Inductive cfsm := CIdle | CCleaning | CLookup | CWaitRd | CAck.
  (** stash_t, cuckooHashTable.py:333-339 *)
  Record stash := mk_stash { sh_key : N; sh_data : D; sh_cntr : nat; sh_vld : bool; sh_orig : origin }.
  (** memories of the tables, the lookups on the way in the tables with their results, which tables already show the first result; insertFsm, stash, insertTargetOH, insertFinal, cleanupAddr,
      lookup_in_progress *)
  Record cu_st := mk_cu { cu_mem : nat -> nat -> citem; cu_q : list (N * (nat -> citem));
    cu_shown : nat -> bool;
    cu_fsm : cfsm; cu_stash : stash; cu_tgt : list bool; cu_fin : bool; cu_addr : nat; cu_prog : nat }.
  (** clean.vld; delete.vld, key; insert.vld, key, data; lookup.vld, key; lookupRes.rd; insertRes.rd; lookup.rd and lookupRes.vld of the tables *)
  Record cu_in := mk_cui { ui_clean : bool; ui_del : option N; ui_ins : option (N * D); ui_look : option N; ui_lrr : bool; ui_irr : bool;
    t_lrd : nat -> bool; t_rv : nat -> bool }.
  (** rd of clean, delete, insert, lookup; lookupRes: vld, found, key, data; insertRes: vld, pop, key, data *)
  Record cu_out := mk_cuo { uo_crd : bool; uo_drd : bool; uo_ird : bool; uo_lrd : bool; uo_lres : option (bool * N * D); uo_ires : option (bool * N * D) }.

  Definition is_some {A} (o : option A) : bool := match o with Some _ => true | None => false end.
  Definition is_orig (a b : origin) : bool := match a, b with OInsert, OInsert | OLookup, OLookup | ODelete, ODelete => true | _, _ => false end.
  Definition is_fsm (a b : cfsm) : bool :=
    match a, b with CIdle, CIdle | CCleaning, CCleaning | CLookup, CLookup | CWaitRd, CWaitRd | CAck, CAck => true | _, _ => false end.
  Definition tbl : list nat := seq 0 TC.
  (** index of the first true bit *)
  Fixpoint first_true (l : list bool) : option nat :=
    match l with [] => None | b :: r => if b then Some 0 else match first_true r with Some n => Some (S n) | None => None end end.
  Definition one_hot (k : nat) : list bool := map (fun j => j =? k) tbl.
  (** ror(l, 1): bit 0 moves to the top *)
  Definition ror1 (l : list bool) : list bool := match l with [] => [] | b :: r => r ++ [b] end.

  (** found of the result [r] of a table for the key [k], hashTableCore.py:156-157 *)
  Definition r_found (k : N) (x : citem) : bool := (k =? ci_key x)%N && ci_vld x.
  (** tables_lookupRes_resolver, cuckooHashTable.py:155-178: next insertTargetOH and insertFinal *)
  Definition new_tgt (k : N) (r : nat -> citem) (tgt : list bool) : list bool :=
    if existsb (fun j => r_found k (r j)) tbl then map (fun j => r_found k (r j)) tbl
    else match first_true (map (fun j => negb (ci_vld (r j))) tbl) with
         | Some j => one_hot j
         | None => if existsb (fun b => b) tgt then ror1 tgt else one_hot (TC - 1)
         end.
  Definition new_fin (k : N) (r : nat -> citem) : bool := existsb (fun j => r_found k (r j)) tbl || existsb (fun j => negb (ci_vld (r j))) tbl.

  Definition CW : nat := log2ceil (MR + 1).
  Definition PW : nat := log2ceil (ML - 1).

  (** hwImpl, cuckooHashTable.py:328-421 *)
  Definition cu_step (s : cu_st) (i : cu_in) : cu_st * cu_out :=
    let st := cu_stash s in
    let fsm := cu_fsm s in
    let idle := is_fsm fsm CIdle in
    let isDel := is_orig (sh_orig st) ODelete in
    let isIns := is_orig (sh_orig st) OInsert in
    let lnip := (cu_prog s =? 0) && negb (is_orig (sh_orig st) OLookup) in
    let cntr0 := sh_cntr st =? 0 in
    (* :418-425 *)
    let lookup_en := (is_fsm fsm CLookup && (negb cntr0 || isDel)) || (idle && is_orig (sh_orig st) OLookup) in
    let lookupAck := forallb (t_lrd i) tbl in
    let accepted := lookup_en && lookupAck in
    let insertAck := negb accepted in
    let rv := fun j => match cu_q s with [] => false | _ :: _ => t_rv i j || cu_shown s j end in
    let lookupResVld := match cu_q s with [] => false | _ :: _ => forallb rv tbl end in
    let r := match cu_q s with [] => None | x :: _ => Some x end in
    (* stash_load, :236-247 *)
    let clean := ui_clean i in let del := is_some (ui_del i) in let ins := is_some (ui_ins i) in let look := is_some (ui_look i) in
    let crd := idle && lnip in
    let drd := idle && negb clean && lnip in
    let ird := idle && negb clean && negb del && lnip in
    let lrd := idle && negb clean && negb del && negb ins && (negb (is_orig (sh_orig st) OLookup) || lookupAck) && negb (cu_prog s =? ML - 1) in
    (* insertRes_driver, :306-326 *)
    let ivld := (is_fsm fsm CLookup && isIns && cntr0) || (is_fsm fsm CAck && insertAck && cu_fin s && negb isDel) in
    let ires := if ivld then Some (cntr0, sh_key st, sh_data st) else None in
    (* the FSM, :364-393 *)
    let last := cu_addr s =? SZ - 1 in
    let fsm' :=
      match fsm with
      | CIdle => if lnip && clean then CCleaning else if lnip && (ins || del) then CLookup else CIdle
      | CCleaning => if insertAck && last then CIdle else CCleaning
      | CLookup => if cntr0 && isIns && ui_irr i then CIdle else if (negb cntr0 || negb isIns) && lookupAck then CWaitRd else CLookup
      | CWaitRd => if lookupResVld then CAck else CWaitRd
      | CAck => if isDel then CIdle else if insertAck && cu_fin s && (isDel || ui_irr i) then CIdle else if insertAck && negb (cu_fin s) then CLookup else CAck
      end in
    let resNext := (idle && ui_lrr i) || (is_fsm fsm CAck && negb (is_fsm fsm' CAck)) in
    (* lookupRes_driver, :269-288 *)
    let lres := match r with
      | Some (k, x) => if idle && lookupResVld then
          let y := x (match first_true (map (fun j => r_found k (x j)) tbl) with Some j => j | None => 0 end) in Some (r_found k y, ci_key y, ci_data y)
          else None
      | None => None end in
    (* stash_load, :201-235 *)
    let stash' :=
      if idle then
        if lnip && clean then mk_stash (sh_key st) (sh_data st) (sh_cntr st) false ODelete
        else match ui_del i, ui_ins i, ui_look i with
        | Some k, _, _ => if lnip then mk_stash k (sh_data st) (sh_cntr st) false ODelete
                          else if lookupAck then mk_stash (sh_key st) (sh_data st) (sh_cntr st) (sh_vld st) ODelete else st
        | None, Some (k, d), _ => if lnip then mk_stash k d MR true OInsert
                          else if lookupAck then mk_stash (sh_key st) (sh_data st) (sh_cntr st) (sh_vld st) ODelete else st
        | None, None, Some k => if lrd then mk_stash k (sh_data st) (sh_cntr st) (sh_vld st) OLookup
                          else if lookupAck then mk_stash (sh_key st) (sh_data st) (sh_cntr st) (sh_vld st) ODelete else st
        | None, None, None => if lookupAck then mk_stash (sh_key st) (sh_data st) (sh_cntr st) (sh_vld st) ODelete else st
        end
      else if resNext then
        match r, first_true (cu_tgt s) with
        | Some (_, x), Some j => mk_stash (ci_key (x j)) (ci_data (x j)) (wdec CW (sh_cntr st)) (ci_vld (x j)) (sh_orig st)
        | _, _ => mk_stash (sh_key st) (sh_data st) (sh_cntr st) (sh_vld st) ODelete
        end
      else st in
    (* lookup_trans_cntr, :290-304 *)
    let lt := lrd && look in
    let rt := is_some lres && ui_lrr i in
    let prog' := if lt && negb rt then winc PW (cu_prog s) else if negb lt && rt then wdec PW (cu_prog s) else cu_prog s in
    (* tables_insert_driver and insert_addr_select, :116-137, 180-195; insertIndex is the hash of the result of the first target *)
    let x' := mk_ci (sh_key st) (sh_data st) (sh_vld st) in
    let widx := match r, first_true (cu_tgt s) with Some (k, _), Some j => hash j k | _, _ => 0 end in
    let mem' := fun j a =>
      match fsm with
      | CCleaning => if insertAck && (a =? cu_addr s) then x' else cu_mem s j a
      | CAck => if insertAck && nth j (cu_tgt s) false && (a =? widx) then x' else cu_mem s j a
      | _ => cu_mem s j a
      end in
    (* the tables *)
    let shown' := fun j => negb (resNext && lookupResVld) && rv j in
    let q1 := if resNext && lookupResVld then tl (cu_q s) else cu_q s in
    let q' := if accepted then q1 ++ [(sh_key st, fun j => cu_mem s j (hash j (sh_key st)))] else q1 in
    (* :172-178 *)
    let res := is_fsm fsm CWaitRd && lookupResVld in
    let tgt' := match r with Some (k, x) => if res then new_tgt k x (cu_tgt s) else cu_tgt s | None => cu_tgt s end in
    let fin' := match r with Some (k, x) => if res then new_fin k x else cu_fin s | None => cu_fin s end in
    (* clean_addr_iterator, :99-114 *)
    let addr' := if is_fsm fsm CCleaning && insertAck then if last then 0 else cu_addr s + 1 else cu_addr s in
    (mk_cu mem' q' shown' fsm' stash' tgt' fin' addr' prog', mk_cuo crd drd ird lrd lres ires).
  (** registers without reset value: key, data, reinsert_cntr and item_vld of the stash, insertTargetOH, insertFinal *)
  Definition cu_init (m : nat -> nat -> citem) (k : N) (d : D) (c : nat) (v : bool) (tgt : list bool) (f : bool) : cu_st :=
    mk_cu m [] (fun _ => false) CIdle (mk_stash k d c v ODelete) tgt f 0 0.
End Cuckoo.
Arguments citem : clear implicits. Arguments cu_st : clear implicits. Arguments cu_in : clear implicits. Arguments cu_out : clear implicits. Arguments stash : clear implicits.
