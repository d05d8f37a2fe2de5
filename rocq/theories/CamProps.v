From Verif Require Import Base BaseFacts CamModel CamSpec CamProofs.

(** C32: the lookup after any history; it is answered in the same cycle. *)
Theorem C32_cam_lookup : forall (ITEMS : nat) (h : list cam_in) (c : cam_in),
  let o := snd (cam_step (final cam_step (cam_init ITEMS) h) c) in
  length (c_odata o) = ITEMS /\
  (forall i, i < ITEMS -> nth i (c_odata o) false = true <-> holds h i (c_mkey c)) /\
  c_ovld o = c_mvld c /\ c_mrd o = c_ordy c /\ c_wrd o = true.
Proof. exact c32. Qed.
Print Assumptions C32_cam_lookup.
Example C32_case : c_odata (snd (cam_step (final cam_step (cam_init 4) [wr 1 9 true; wr 2 9 true; wr 3 9 true; lk 9; wr 3 9 false; wr 1 8 true]) (lk 9)))
  = [false; false; true; false].
Proof. reflexivity. Qed.

(** C32: every item has an address which fits into write.addr, unless ITEMS = 2^k + 1. *)
Theorem C32_cam_addressable_partial : forall k ITEMS, 2 <= ITEMS -> 2 ^ k < ITEMS -> ITEMS <= 2 ^ S k -> ITEMS <> 2 ^ k + 1 ->
  ITEMS <= 2 ^ cam_addr_width ITEMS.
Proof. exact c32_addr. Qed.
Print Assumptions C32_cam_addressable_partial.
Example C32_addressable_case : 2 <= 32 /\ 2 ^ 4 < 32 /\ 32 <= 2 ^ 5 /\ 32 <> 2 ^ 4 + 1 /\ cam_addr_width 32 = 5.
Proof. vm_compute. lia. Qed.

(** For ITEMS = 2^k + 1 the last item can not be addressed. *)
Theorem C32_cam_addressable_refuted : forall k, 1 <= k -> let ITEMS := 2 ^ k + 1 in 2 ^ cam_addr_width ITEMS < ITEMS.
Proof. exact c32_addr_bad. Qed.
Print Assumptions C32_cam_addressable_refuted.
