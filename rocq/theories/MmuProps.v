From Verif Require Import Base MmuModel MmuSpec MmuFinal MmuCases.
From Coq Require Import NArith.
Open Scope N_scope.

(** C86: ArrayItemGetter hands over the items of the array in the order of the indexes, for items of at least two bytes *)
Theorem C86_array_items_partial : forall (AW kb ks D : nat) (mem : N -> N) (m : nat -> N) (d : N) (is : list ag_in),
  (1 <= kb)%nat -> (2 <= D)%nat -> (forall a, mem a < 256) ->
  let t := trace (ag_step AW (2 ^ kb) (2 ^ ks) D) (ag_init D m d) is in
  served mem (2 ^ ks * 2 ^ kb) [] (map g_bus t) ->
  (forall p, In p (flat_map g_asked t) -> fst p + snd p * N.of_nat (2 ^ kb) < 2 ^ N.of_nat AW) ->
  exists rest, map (fun p => item mem (fst p) (2 ^ kb) (snd p)) (flat_map g_asked t) = flat_map g_got t ++ rest /\ (ks = 0%nat \/ (length rest <= D)%nat).
Proof. exact c86. Qed.
Print Assumptions C86_array_items_partial.
(** two offered words with a ready user hand over at least one item *)
Theorem C86_array_progress_partial : forall (AW kb ks D : nat) (mem : N -> N) (m : nat -> N) (d : N) (is : list ag_in) (i j : ag_in),
  (1 <= kb)%nat -> (2 <= D)%nat -> (forall a, mem a < 256) ->
  let t := trace (ag_step AW (2 ^ kb) (2 ^ ks) D) (ag_init D m d) (is ++ [i; j]) in
  served mem (2 ^ ks * 2 ^ kb) [] (map g_bus t) ->
  (forall p, In p (flat_map g_asked t) -> fst p + snd p * N.of_nat (2 ^ kb) < 2 ^ N.of_nat AW) ->
  gi_rv i = true -> gi_rd i = true -> gi_rv j = true -> gi_rd j = true ->
  (length (flat_map g_got (trace (ag_step AW (2 ^ kb) (2 ^ ks) D) (ag_init D m d) is)) < length (flat_map g_got t))%nat.
Proof. exact c86_progress. Qed.
Print Assumptions C86_array_progress_partial.
(** an offered item stays *)
Theorem C86_array_hold : forall (AW IB K D : nat) (m : nat -> N) (d : N) (is : list ag_in) (i j : ag_in) (v : N),
  (2 <= D)%nat ->
  let step := ag_step AW IB K D in let s := final step (ag_init D m d) is in
  go_item (snd (step s i)) = Some v -> gi_rd i = false -> gi_rv j = true -> gi_r j = gi_r i -> go_item (snd (step (fst (step s i)) j)) = Some v.
Proof. exact c86_hold. Qed.
Print Assumptions C86_array_hold.
(** with items of one byte the addresses are doubled *)
Theorem C86_array_of_bytes_refuted : exists (AW ks D : nat) (mem : N -> N) (is : list ag_in),
  (2 <= D)%nat /\ (forall a, mem a < 256) /\
  let t := trace (ag_step AW 1 (2 ^ ks) D) (ag_init D (fun _ => 0) 0) is in
  served mem (2 ^ ks) [] (map g_bus t) /\
  (forall p, In p (flat_map g_asked t) -> fst p + snd p < 2 ^ N.of_nat AW) /\
  length (flat_map g_got t) = 1%nat /\
  ~ exists rest, map (fun p => item mem (fst p) 1 (snd p)) (flat_map g_asked t) = flat_map g_got t ++ rest.
Proof. exact array_of_bytes. Qed.
Print Assumptions C86_array_of_bytes_refuted.
Example C86_served : served cx_mem 8 [] (map g_bus (trace (ag_step 32 4 2 4) (ag_init 4 (fun _ => 0) 0) cx_get)).
Proof. apply servedb_ok. vm_compute. reflexivity. Qed.
Example C86_asked : flat_map g_asked (trace (ag_step 32 4 2 4) (ag_init 4 (fun _ => 0) 0) cx_get) = [(64, 5); (64, 2)].
Proof. vm_compute. reflexivity. Qed.
Example C86_got : flat_map g_got (trace (ag_step 32 4 2 4) (ag_init 4 (fun _ => 0) 0) cx_get) = [item cx_mem 64 4 5; item cx_mem 64 4 2].
Proof. vm_compute. reflexivity. Qed.

(** C87: MMU_2pageLvl: the physical addresses are the translations of the first accepted addresses, all of them mapped; no segfault without an address which is not mapped *)
Theorem C87_mmu_translation : forall (kb PO W2 ks MO D : nat) (mem : N -> N) (tbl : N -> N) (u a b c : N) (mg : nat -> N) (g : N) (mi mo : nat -> N) (is : list mm_in),
  (1 <= kb)%nat -> (2 <= D)%nat -> (4 <= MO)%nat -> (forall x, mem x < 256) ->
  let AW := (8 * 2 ^ kb)%nat in
  let t := trace (mm_step AW PO W2 (2 ^ ks) MO D u) (mm_init MO D (fun x => tbl (N.of_nat x)) a b c mg g mi mo) is in
  let L := lookups PO W2 tbl t in
  Forall u_quiet t -> served mem (2 ^ ks * 2 ^ kb) [] (map u_bus t) ->
  (forall q, In q L -> N.odd (snd q) = false -> snd q + 2 ^ N.of_nat W2 * N.of_nat (2 ^ kb) <= 2 ^ N.of_nat AW) ->
  (exists n, flat_map u_sent t = map (physical mem AW PO W2) (firstn n L) /\ (n <= length L)%nat /\ forallb (mapped mem AW PO W2) (firstn n L) = true) /\
  (forall x, In x t -> mo_seg (snd x) = true -> mo_p (snd x) = None /\ exists q, In q L /\ mapped mem AW PO W2 q = false).
Proof. exact c87. Qed.
Print Assumptions C87_mmu_translation.
(** if all accepted addresses are mapped then all of them are translated *)
Theorem C87_mmu_progress : forall (kb PO W2 ks MO D : nat) (mem : N -> N) (tbl : N -> N) (u a b c : N) (mg : nat -> N) (g : N) (mi mo : nat -> N) (is js : list mm_in),
  (1 <= kb)%nat -> (2 <= D)%nat -> (4 <= MO)%nat -> (forall x, mem x < 256) ->
  let AW := (8 * 2 ^ kb)%nat in
  let step := mm_step AW PO W2 (2 ^ ks) MO D u in let s0 := mm_init MO D (fun x => tbl (N.of_nat x)) a b c mg g mi mo in
  let t := trace step s0 (is ++ js) in
  let L := lookups PO W2 tbl t in
  Forall u_quiet t -> served mem (2 ^ ks * 2 ^ kb) [] (map u_bus t) ->
  (forall q, In q L -> N.odd (snd q) = false -> snd q + 2 ^ N.of_nat W2 * N.of_nat (2 ^ kb) <= 2 ^ N.of_nat AW) ->
  (forall q, In q L -> mapped mem AW PO W2 q = true) ->
  Forall (fun i => mi_vv i = false /\ mi_prd i = true /\ mi_qrd i = true) js ->
  prompt (pending [] (map u_bus (trace step s0 is))) (map u_bus (trace step (final step s0 is) js)) ->
  (3 * length L + 2 <= length js)%nat ->
  flat_map u_sent t = map (physical mem AW PO W2) L.
Proof. exact c87_progress. Qed.
Print Assumptions C87_mmu_progress.
(** segfault stays *)
Theorem C87_mmu_segfault : forall (AW PO W2 K MO D : nat) (tbl : nat -> N) (u a b c : N) (mg : nat -> N) (g : N) (mi mo : nat -> N) (is : list mm_in) (i j : mm_in),
  let step := mm_step AW PO W2 K MO D u in let s := final step (mm_init MO D tbl a b c mg g mi mo) is in
  mo_seg (snd (step s i)) = true -> mo_seg (snd (step (fst (step s i)) j)) = true.
Proof. exact c87_seg. Qed.
Print Assumptions C87_mmu_segfault.
(** an offered physical address is withdrawn because of a later virtual address *)
Theorem C87_mmu_hold_refuted : exists (mem : N -> N) (is : list mm_in) (i j : mm_in) (p : N),
  (forall x, mem x < 256) /\ Forall u_quiet (trace cx_step cx_init (is ++ [i; j])) /\ served mem 2 [] (map u_bus (trace cx_step cx_init (is ++ [i; j]))) /\
  let s := final cx_step cx_init is in
  mo_p (snd (cx_step s i)) = Some p /\ mi_prd i = false /\ mi_rv j = true /\ mi_r j = mi_r i /\ mo_p (snd (cx_step (fst (cx_step s i)) j)) = None.
Proof.
  exists cx_pt, (firstn 6 cx_withdraw), (cx_u None (Some 70) false), (cx_u None (Some 70) false), 359. split; [exact cx_pt_ok|].
  split; [apply quietb_ok; vm_compute; reflexivity|]. split; [apply servedb_ok; vm_compute; reflexivity|]. vm_compute. repeat split.
Qed.
Print Assumptions C87_mmu_hold_refuted.
Example C87_lookups : lookups 4 4 cx_tbl (trace cx_step cx_init (cx_two ++ cx_rest)) = [(0x037, 64); (0x129, 128)].
Proof. vm_compute. reflexivity. Qed.
Example C87_served : served cx_pt 2 [] (map u_bus (trace cx_step cx_init (cx_two ++ cx_rest))).
Proof. apply servedb_ok. vm_compute. reflexivity. Qed.
Example C87_quiet : Forall u_quiet (trace cx_step cx_init (cx_two ++ cx_rest)).
Proof. apply quietb_ok. vm_compute. reflexivity. Qed.
Example C87_prompt : prompt (pending [] (map u_bus (trace cx_step cx_init cx_two))) (map u_bus (trace cx_step (final cx_step cx_init cx_two) cx_rest)).
Proof. apply promptb_ok. vm_compute. reflexivity. Qed.
Example C87_sent : flat_map u_sent (trace cx_step cx_init (cx_two ++ cx_rest)) = [0x167; 0x119].
Proof. vm_compute. reflexivity. Qed.
Example C87_physical : map (physical cx_pt 16 4 4) [(0x037, 64); (0x129, 128)] = [0x167; 0x119].
Proof. vm_compute. reflexivity. Qed.
