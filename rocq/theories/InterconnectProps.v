From Verif Require Import Base BaseFacts InterconnectModel InterconnectSpec InterconnectProofs.
Local Open Scope Z_scope.

(** C35: an accepted configuration keeps sizes and explicit addresses, is aligned and disjoint. *)
Theorem C35_slave_regions : forall (SLAVES : list slave_cfg) (l : list region), normalize_slaves SLAVES = Some l ->
  Forall2 respects SLAVES l /\ disjoint_regions l.
Proof. exact c35. Qed.
Print Assumptions C35_slave_regions.
Example C35_case : normalize_slaves [(Some 256, 256); (None, 64); (None, 1024); (Some 0, 16); (None, 4)]
  = Some [(256, 256); (512, 64); (1024, 1024); (0, 16); (2048, 4)].
Proof. reflexivity. Qed.

(** C35: explicit configurations are accepted exactly if sizes are powers of two, addresses aligned, not negative and the
    regions disjoint. *)
Theorem C35_explicit_accepted_iff : forall l : list region,
  (exists l', normalize_slaves (map (fun r => (Some (fst r), snd r)) l) = Some l') <->
  (Forall (fun r => pow2_size (snd r) /\ fst r mod snd r = 0 /\ 0 <= fst r) l /\ disjoint_regions l).
Proof. exact c35_complete. Qed.
Print Assumptions C35_explicit_accepted_iff.
Example C35_rejected : normalize_slaves [(Some 0, 16); (Some 8, 8)] = None /\ normalize_slaves [(Some 8, 16)] = None /\ normalize_slaves [(Some 0, 12)] = None.
Proof. repeat split. Qed.

(** C35: automatic addresses never collide with each other. *)
Theorem C35_auto_accepted : forall ss, Forall pow2_size ss -> exists l, normalize_slaves (map (fun s => (None, s)) ss) = Some l.
Proof. exact c35_auto. Qed.
Print Assumptions C35_auto_accepted.

(** C36, if the slave declared last ends at the highest address and its last word is not on an address 2^k.  Every word
    address of every slave fits the computed width.  Missing: see the two refuted theorems. *)
Theorem C36_addr_width_partial : forall (l : list region) (r : region) (DW w : Z),
  0 < DW / 8 ->
  optimal_addr_size (l ++ [r]) DW = Some w ->
  (forall q, In q l -> fst q + snd q <= fst r + snd r) ->
  (fst r + snd r) mod (DW / 8) = 0 ->
  (forall k, 0 < k -> fst r + snd r - DW / 8 <> 2 ^ k) ->
  forall q x, In q (l ++ [r]) -> in_region q x -> 0 <= x -> x mod (DW / 8) = 0 -> x < 2 ^ w.
Proof. exact c36. Qed.
Print Assumptions C36_addr_width_partial.
Example C36_case : optimal_addr_size ([(0, 4096)] ++ [(4096, 4096)]) 32 = Some 13 /\
  (forall q, In q [(0, 4096)] -> fst q + snd q <= 4096 + 4096) /\ (4096 + 4096) mod (32 / 8) = 0 /\
  (forall k, 0 < k -> 4096 + 4096 - 32 / 8 <> 2 ^ k).
Proof. exact ex36. Qed.

(** The slaves are declared in another order than by address. *)
Theorem C36_addr_width_order_refuted : exists (SLAVES : list slave_cfg) (l : list region) (w x : Z) (q : region),
  normalize_slaves SLAVES = Some l /\ optimal_addr_size l 32 = Some w /\ In q l /\ in_region q x /\ x mod 4 = 0 /\ 2 ^ w <= x.
Proof. exact c36_bad_order. Qed.
Print Assumptions C36_addr_width_order_refuted.

(** Sorted slaves, the last word is on an address which is a power of two. *)
Theorem C36_addr_width_pow2_refuted : exists (SLAVES : list slave_cfg) (l : list region) (w x : Z) (q : region),
  normalize_slaves SLAVES = Some l /\ sort_regions l = l /\ optimal_addr_size l 32 = Some w /\ In q l /\ in_region q x /\ x mod 4 = 0 /\ 2 ^ w <= x.
Proof. exact c36_bad_pow2. Qed.
Print Assumptions C36_addr_width_pow2_refuted.

(** C37: the groups are the connected components of the masters with all their slaves. *)
Local Open Scope nat_scope.
Theorem C37_separable_groups : forall mcon : list (list nat), exists l,
  separable_groups mcon = Some l /\
  (forall m, m < length mcon -> exists! i, exists g, nth_error l i = Some g /\ In m (fst g)) /\
  (forall g m m', In g l -> In m (fst g) -> (In m' (fst g) <-> m' < length mcon /\ linked mcon m m')) /\
  (forall g s, In g l -> (In s (snd g) <-> exists m, In m (fst g) /\ In s (nth m mcon []))) /\
  (forall i j g g' s, nth_error l i = Some g -> nth_error l j = Some g' -> In s (snd g) -> In s (snd g') -> i = j).
Proof. exact c37. Qed.
Print Assumptions C37_separable_groups.
Example C37_case : separable_groups [[0; 1]; [2]; [3; 1]; []; [2; 4]] =
  Some [([2; 0], [3; 1; 0; 1]); ([4; 1], [2; 4; 2]); ([3], [])].
Proof. vm_compute. reflexivity. Qed.
