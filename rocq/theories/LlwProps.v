(** CLinkedListWriter (hwtLib/structManipulators/cLinkedListWriter.py): writes items to a circular linked list in the memory. *)
From Verif Require Import Base LlwModel ArrwSpec LlwSpec LlwProofs LlwCases.

(** C94: the words given to the datapump are the items in order, whatever the datapump does *)
Theorem C94_order_partial : forall (A : Type) CAP ITEMS AW DW PW TIMEOUT, 2 <= CAP -> 1 <= TIMEOUT ->
  forall (m0 : nat -> A) (d0 : A) x y z is,
  let t := trace (w_step CAP ITEMS AW DW PW TIMEOUT) (w_init CAP ITEMS PW TIMEOUT m0 d0 x y z) is in
  map fst (w_words t) = firstn (length (w_words t)) (w_items t).
Proof. exact @t94_order. Qed.
Example C94_order_partial_nonvacuous :
  let t := trace (w_step 4 5 10 64 4 20) (winit 4 5 4 20) wrun2 in map fst (w_words t) = [100; 101; 102; 103; 104; 105; 106; 107; 108; 109; 110; 111] /\ 12 <= length (w_items t).
Proof. cbn zeta. split; [vm_compute; reflexivity|]. apply Nat.leb_le. vm_compute. reflexivity. Qed.

(** C94: the requests never ask for more words than the announced space, and no more words are sent *)
Theorem C94_space_partial : forall (A : Type) CAP ITEMS AW DW PW TIMEOUT, 2 <= CAP -> 1 <= TIMEOUT ->
  forall (m0 : nat -> A) (d0 : A) x y z is, no_wr is ->
  let t := trace (w_step CAP ITEMS AW DW PW TIMEOUT) (w_init CAP ITEMS PW TIMEOUT m0 d0 x y z) is in
  acks_ok 0 0 0 t -> w_fits PW 0 0 0 t -> length (w_words t) <= w_asked t /\ w_asked t <= room PW 0 t.
Proof. exact @t94_space. Qed.
Example C94_space_partial_nonvacuous :
  no_wr wrun2 /\ let t := trace (w_step 4 5 10 64 4 20) (winit 4 5 4 20) wrun2 in acks_ok 0 0 0 t /\ w_fits 4 0 0 0 t /\ w_asked t = 12 /\ room 4 0 t = 12.
Proof.
  split; [apply no_wr_ok; vm_compute; reflexivity|]. cbn zeta. split; [apply acks_okb_ok; vm_compute; reflexivity|]. split; [apply w_fitsb_ok; vm_compute; reflexivity|]. vm_compute. auto.
Qed.

(** C94: in the first block item k is written to its cell, if words are always taken, an item is always offered and the space is that of the block *)
Theorem C94_first_block_partial : forall (A : Type) CAP ITEMS AW a PW TIMEOUT, w_elaborates CAP ITEMS = true -> 2 <= CAP -> wburst CAP < TIMEOUT -> 1 <= a <= AW ->
  forall (m0 : nat -> A) (d0 : A) (x y z base : nat) (i0 : w_in A) (is : list (w_in A)), x_base i0 = Some base -> base < 2 ^ AW -> base mod 2 ^ a = 0 -> e_wr i0 = true -> e_v i0 = true -> no_wr (i0 :: is) -> steady is ->
  forall mem, let t := trace (w_step CAP ITEMS AW (8 * 2 ^ a) PW TIMEOUT) (w_init CAP ITEMS PW TIMEOUT m0 d0 x y z) (i0 :: is) in
  acks_ok 0 0 0 t -> w_fits PW 0 0 0 t -> room PW 0 t <= ITEMS ->
  exists l, written (8 * 2 ^ a / 8) AW None (w_reqs t) (w_words t) = Some l /\ map snd l = firstn (length (w_words t)) (w_items t) /\
            map fst l = map (target mem (8 * 2 ^ a / 8) AW ITEMS base) (seq 0 (length (w_words t))).
Proof. exact @t94_block. Qed.
Example C94_first_block_partial_nonvacuous :
  no_wr wrun1 /\ steady (tl wrun1) /\ let t := trace (w_step 4 5 10 64 4 20) (winit 4 5 4 20) wrun1 in acks_ok 0 0 0 t /\ w_fits 4 0 0 0 t /\ room 4 0 t = 5 /\
  written 8 10 None (w_reqs t) (w_words t) = Some [(64, 100); (72, 101); (80, 102); (88, 103); (96, 104)].
Proof.
  split; [apply no_wr_ok; vm_compute; reflexivity|]. split; [apply steady_ok; vm_compute; reflexivity|]. cbn zeta. split; [apply acks_okb_ok; vm_compute; reflexivity|]. split; [apply w_fitsb_ok; vm_compute; reflexivity|]. vm_compute. auto.
Qed.

(** the next pointer is loaded but never followed: after the first block of 6 words at 64 the writer goes on at 112 and not at 256 *)
Theorem C94_next_block_refuted : exists CAP ITEMS AW a PW TIMEOUT (mem : nat -> nat) (is : list (w_in nat)),
  w_elaborates CAP ITEMS = true /\ no_wr is /\ steady (tl is) /\
  let t := trace (w_step CAP ITEMS AW (8 * 2 ^ a) PW TIMEOUT) (winit CAP ITEMS PW TIMEOUT) is in
  acks_ok 0 0 0 t /\ w_fits PW 0 0 0 t /\ map (target mem (2 ^ a) AW ITEMS 64) (seq 0 8) = [64; 72; 80; 88; 96; 104; 256; 264] /\
  firstn 8 (w_places (2 ^ a) AW t) = [64; 72; 80; 88; 96; 104; 112; 120].
Proof.
  exists 4, 6, 10, 3, 4, 20, nexts6, wrun4. split; [reflexivity|]. split; [apply no_wr_ok; vm_compute; reflexivity|]. split; [apply steady_ok; vm_compute; reflexivity|]. cbn zeta.
  split; [apply acks_okb_ok; vm_compute; reflexivity|]. split; [apply w_fitsb_ok; vm_compute; reflexivity|]. split; vm_compute; reflexivity.
Qed.
(** one request covers the last item and the next pointer: with blocks of 5 words at 64 the item 105 is written over the pointer at 104 *)
Theorem C94_pointer_overwritten_refuted : exists CAP ITEMS AW a PW TIMEOUT (is : list (w_in nat)),
  w_elaborates CAP ITEMS = true /\ no_wr is /\ steady (tl is) /\
  let t := trace (w_step CAP ITEMS AW (8 * 2 ^ a) PW TIMEOUT) (winit CAP ITEMS PW TIMEOUT) is in
  acks_ok 0 0 0 t /\ w_fits PW 0 0 0 t /\ In (96, 1) (w_reqs t) /\ exists l, written (2 ^ a) AW None (w_reqs t) (w_words t) = Some l /\ In (64 + ITEMS * 2 ^ a, 105) l.
Proof.
  exists 4, 5, 10, 3, 4, 20, wrun2. split; [reflexivity|]. split; [apply no_wr_ok; vm_compute; reflexivity|]. split; [apply steady_ok; vm_compute; reflexivity|]. cbn zeta.
  split; [apply acks_okb_ok; vm_compute; reflexivity|]. split; [apply w_fitsb_ok; vm_compute; reflexivity|]. split; [vm_compute; auto|]. eexists. split; [vm_compute; reflexivity|]. vm_compute. auto 10.
Qed.
(** if the datapump does not take the last word of a request in its first cycle, the word is never sent and the writer is stuck *)
Theorem C94_last_word_refuted : exists CAP ITEMS AW a PW TIMEOUT (is : list (w_in nat)),
  w_elaborates CAP ITEMS = true /\ no_wr is /\
  let step := w_step CAP ITEMS AW (8 * 2 ^ a) PW TIMEOUT in let t := trace step (winit CAP ITEMS PW TIMEOUT) is in
  acks_ok 0 0 0 t /\ w_fits PW 0 0 0 t /\ w_reqs t = [(64, 1)] /\ w_words t = [(100, false)] /\ 2 <= length (w_items t) /\
  forall js, let t2 := trace step (final step (winit CAP ITEMS PW TIMEOUT) is) js in acks_ok (w_asked t) (length (w_words t)) 1 t2 -> w_words t2 = [] /\ w_reqs t2 = [].
Proof.
  exists 4, 5, 10, 3, 4, 20, wrun3. split; [reflexivity|]. split; [apply no_wr_ok; vm_compute; reflexivity|]. cbn zeta.
  split; [apply acks_okb_ok; vm_compute; reflexivity|]. split; [apply w_fitsb_ok; vm_compute; reflexivity|]. split; [vm_compute; reflexivity|]. split; [vm_compute; reflexivity|]. split; [apply Nat.leb_le; vm_compute; reflexivity|].
  intros js. apply stuck; [vm_compute; reflexivity|apply Nat.ltb_lt; vm_compute; reflexivity].
Qed.
(** the timeout makes a request which is longer than the number of buffered items, and the missing word is never sent *)
Theorem C94_timeout_refuted : exists CAP ITEMS AW a PW TIMEOUT (is : list (w_in nat)),
  w_elaborates CAP ITEMS = true /\ no_wr is /\ Forall (fun i => e_wr i = true) is /\
  let step := w_step CAP ITEMS AW (8 * 2 ^ a) PW TIMEOUT in let t := trace step (winit CAP ITEMS PW TIMEOUT) is in
  acks_ok 0 0 0 t /\ w_fits PW 0 0 0 t /\ w_items t = [100] /\ w_reqs t = [(64, 1)] /\ w_words t = [(100, false)] /\
  forall js, let t2 := trace step (final step (winit CAP ITEMS PW TIMEOUT) is) js in acks_ok (w_asked t) (length (w_words t)) 1 t2 -> w_words t2 = [] /\ w_reqs t2 = [].
Proof.
  exists 4, 5, 10, 3, 4, 5, wrun5. split; [reflexivity|]. split; [apply no_wr_ok; vm_compute; reflexivity|]. split; [vm_compute; repeat constructor|]. cbn zeta.
  split; [apply acks_okb_ok; vm_compute; reflexivity|]. split; [apply w_fitsb_ok; vm_compute; reflexivity|]. split; [vm_compute; reflexivity|]. split; [vm_compute; reflexivity|]. split; [vm_compute; reflexivity|].
  intros js. apply stuck; [vm_compute; reflexivity|apply Nat.ltb_lt; vm_compute; reflexivity].
Qed.

Print Assumptions C94_order_partial.
Print Assumptions C94_space_partial.
Print Assumptions C94_first_block_partial.
Print Assumptions C94_next_block_refuted.
Print Assumptions C94_pointer_overwritten_refuted.
Print Assumptions C94_last_word_refuted.
Print Assumptions C94_timeout_refuted.
