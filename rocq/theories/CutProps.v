(** C167 and C168: helpers of caches *)
From Verif Require Import Base CutModel CutSpec CutProofs.

(** a write with byte enables changes exactly the enabled bytes *)
Theorem C167_write : forall current new mask, length current = 8 * length mask -> length new = 8 * length mask ->
  length (apply_write_with_mask current new mask) = length current /\
  forall k, k < length current -> nth k (apply_write_with_mask current new mask) false = written_bit current new mask k.
Proof. exact write_ok. Qed.
Print Assumptions C167_write.

(** every signal can be extended to whole bytes; the function does it for 8 bits. Missing: all other widths, where it is false, see below *)
Theorem C167_extend_partial : forall sig, length sig = 8 -> exists r, extend_to_width_multiple_of_8 sig = Some r /\ is_extension sig r.
Proof. exact extend_one. Qed.
Print Assumptions C167_extend_partial.

(** an extension exists for every signal *)
Theorem C167_extension_exists : forall sig, exists r, is_extension sig r.
Proof. exact extension_exists. Qed.
Print Assumptions C167_extension_exists.

(** for every other width it raises an exception *)
Theorem C167_extend_refuted : forall sig, sig <> [] -> length sig <> 8 -> extend_to_width_multiple_of_8 sig = None.
Proof. exact extend_none. Qed.
Print Assumptions C167_extend_refuted.

(** the read port gives the last key written to the index. Missing: ITEMS - 1 is a power of two, where it is false, see below *)
Theorem C168_read_partial : forall items ins w i, (forall k, 0 < k -> items <> 2 ^ k + 1) ->
  Forall (fun x => match fst x with Some (a, _) => a < items | None => True end) ins -> i < items ->
  snd (cam_step items (final (cam_step items) (cam_init items) ins) (w, i)) = Some (last_written i (map fst ins)).
Proof. exact cam_reads. Qed.
Print Assumptions C168_read_partial.

(** for ITEMS = 2^k + 1 the address is too narrow: the last item is read as the item 0 *)
Theorem C168_alias_refuted : forall k d, 0 < k -> d <> 0%N -> let items := 2 ^ k + 1 in
  snd (cam_step items (final (cam_step items) (cam_init items) [(Some (0, d), 0)]) (None, items - 1)) = Some d /\ last_written (items - 1) [Some (0, d)] = 0%N.
Proof. exact cam_alias. Qed.
Print Assumptions C168_alias_refuted.

(** the hypotheses are met: two bytes, the second one is enabled *)
Example C167_case :
  let cur := repeat true 16 in let new := repeat false 8 ++ [true; false; true; false; true; false; true; false] in
  length cur = 8 * length [false; true] /\ length new = 8 * length [false; true] /\
  apply_write_with_mask cur new [false; true] = repeat true 8 ++ [true; false; true; false; true; false; true; false] /\ extend_to_width_multiple_of_8 (repeat true 12) = None.
Proof. vm_compute. auto. Qed.
(** the hypotheses are met: 7 items, the item 6 is written twice *)
Example C168_case :
  let ins := [(Some (6, 5%N), 0); (None, 6); (Some (6, 9%N), 6); (Some (2, 1%N), 6)] in
  (forall k, 0 < k -> 7 <> 2 ^ k + 1) /\ Forall (fun x : option (nat * N) * nat => match fst x with Some (a, _) => a < 7 | None => True end) ins /\
  outs (cam_step 7) (cam_init 7) ins = [Some 0; Some 5; Some 5; Some 9]%N /\ last_written 6 (map fst ins) = 9%N.
Proof.
  cbv zeta. split; [|split; [repeat (apply Forall_cons; [cbn; lia|]); apply Forall_nil|vm_compute; auto]].
  intros k _ E. do 3 (destruct k as [|k]; [discriminate E|]). cbn in E. pose proof (Nat.pow_nonzero 2 k ltac:(lia)). lia.
Qed.
