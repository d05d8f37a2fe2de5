(** C159 - SegmentedArrayProxy behaves as one array of items. *)
From Coq Require Import NArith List.
From Verif Require Import Base SapModel SapSpec SapProofs.
Import ListNotations.
Local Open Scope N_scope.

(** guard: memories with items of 8 bits *)
Theorem C159_array_partial : forall c, proper c -> sg_w c = 8 -> forall l s, Forall (op_fits c) l ->
  exists s', sg_run c s l = Some s' /\
    forall j, (j < items c)%nat -> exists v0, sg_get c (ss_val s) j = Some v0 /\ sg_get c (ss_val s') j = Some (last_value l j v0).
Proof. exact array_ok. Qed.
(** the values at the start of the simulation (zero if not written) *)
Theorem C159_start_partial : forall c, proper c -> sg_w c = 8 -> forall l s, Forall (op_fits c) l -> l <> [] -> ss_def s = None ->
  exists s' d, sg_run c s l = Some s' /\ ss_def s' = Some d /\ forall j, (j < items c)%nat -> sg_get c d j = Some (last_value l j 0).
Proof. exact start_ok. Qed.
Theorem C159_len_partial : forall c p, proper c -> sg_wpi c = Some p -> sg_len c = Some (items c).
Proof. exact len_ok. Qed.

(** wider items are cut to 8 bits; writes to narrower ones raise; the length needs words_per_item *)
Theorem C159_wide_refuted : exists c s i v s', proper c /\ op_fits c (SgSet i v) /\ sg_set c s i v = Some s' /\ sg_get c (ss_val s') i <> Some v.
Proof. exact wide_refuted. Qed.
Theorem C159_narrow_refuted : exists c s i v, proper c /\ op_fits c (SgSet i v) /\ sg_set c s i v = None.
Proof. exact narrow_refuted. Qed.
Theorem C159_len_refuted : exists c, proper c /\ (0 < items c)%nat /\ sg_len c = None.
Proof. exact len_refuted. Qed.

Print Assumptions C159_array_partial. Print Assumptions C159_start_partial. Print Assumptions C159_len_partial.
Print Assumptions C159_wide_refuted. Print Assumptions C159_narrow_refuted. Print Assumptions C159_len_refuted.

(** items of 32 bits in two memories of 8 bits, two words per item *)
Example C159_array_case :
  let c := mk_sg 8 2 8 (Some 2%nat) in let l := [SgSet 0 1; SgSet 3 0x12345678; SgSet 1 0xffffffff; SgSet 0 0xabcd0002] in
  proper c /\ Forall (op_fits c) l /\ items c = 4%nat /\
  exists s', sg_run c (mk_ss (fun _ _ => 0) None) l = Some s' /\ map (sg_get c (ss_val s')) [0; 1; 2; 3]%nat = [Some 0xabcd0002; Some 0xffffffff; Some 0; Some 0x12345678].
Proof.
  cbv zeta. split; [repeat split; vm_compute; auto; discriminate|]. split; [repeat (apply Forall_cons; [split; [apply Nat.ltb_lt|apply N.ltb_lt]; vm_compute; reflexivity|]); apply Forall_nil|].
  split; [reflexivity|]. eexists. split; [vm_compute; reflexivity|]. vm_compute. reflexivity.
Qed.
