(** CLinkedListReader (hwtLib/structManipulators/cLinkedListReader.py): reads the items of a circular linked list in the memory. *)
From Verif Require Import Base LlrModel LlrSpec LlrProofs LlrCases.

(** C93: dataOut gives items 0, 1, 2... of the list, and the reader never asks for an item which was not announced. For words of 2, 4, 8... bytes and ITEMS_IN_BLOCK < 2^PTR_WIDTH. *)
Theorem C93_list_read_partial :
  forall ID ID_LAST CAP ITEMS AW a PW (mem : nat -> nat), ID <> ID_LAST -> 4 <= CAP -> 1 <= ITEMS -> ITEMS < 2 ^ PW -> 1 <= a <= AW ->
  forall (m0 : nat -> nat) (d0 b0 : nat) (i0 : l_in) (base : nat), s_base i0 = Some base -> s_rd i0 = None -> base < 2 ^ AW -> base mod 2 ^ a = 0 ->
  forall is, keeps is ->
  let t := trace (l_step ID ID_LAST CAP ITEMS AW (8 * 2 ^ a) PW) (l_init CAP ITEMS m0 d0 b0) (i0 :: is) in
  honest mem (8 * 2 ^ a / 8) AW [] t -> fits ID_LAST PW 0 0 t ->
  received t = map (item mem (8 * 2 ^ a / 8) AW ITEMS base) (seq 0 (length (received t))) /\
  length (received t) <= asked ID_LAST t /\ asked ID_LAST t <= announced PW 0 t.
Proof. exact t93_items. Qed.
Example C93_list_read_partial_nonvacuous :
  s_base (hd (mk_li false 0 0 false false false None None None) run1) = Some 64 /\ keeps (tl run1) /\
  let t := trace (l_step 3 4 8 5 10 64 4) (l_init 8 5 (fun _ => 0) 0 0) run1 in
  honest ring 8 10 [] t /\ fits 4 4 0 0 t /\ received t = [1064; 1072; 1080; 1088; 1096; 1256; 1264; 1272; 1280; 1288; 1064; 1072; 1080; 1088; 1096; 1256; 1264; 1272; 1280].
Proof.
  split; [vm_compute; reflexivity|]. split; [apply keeps_ok; vm_compute; reflexivity|]. cbn zeta.
  split; [apply honestb_ok; vm_compute; reflexivity|]. split; [apply fitsb_ok; vm_compute; reflexivity|]. vm_compute. reflexivity.
Qed.

(** C93: while announced items were not received, the next one comes within 6 cycles if the datapump serves and the consumer takes data *)
Theorem C93_progress_partial :
  forall ID ID_LAST CAP ITEMS AW a PW (mem : nat -> nat), ID <> ID_LAST -> 4 <= CAP -> 1 <= ITEMS -> ITEMS < 2 ^ PW -> 1 <= a <= AW ->
  forall (m0 : nat -> nat) (d0 b0 : nat) (i0 : l_in) (base : nat), s_base i0 = Some base -> s_rd i0 = None -> base < 2 ^ AW -> base mod 2 ^ a = 0 ->
  forall is js, keeps (is ++ js) ->
  let step := l_step ID ID_LAST CAP ITEMS AW (8 * 2 ^ a) PW in
  let s := l_init CAP ITEMS m0 d0 b0 in let t := trace step s (i0 :: is) in let t2 := trace step (final step s (i0 :: is)) js in
  honest mem (8 * 2 ^ a / 8) AW [] (t ++ t2) -> fits ID_LAST PW 0 0 (t ++ t2) ->
  serves mem (8 * 2 ^ a / 8) AW (due_after mem (8 * 2 ^ a / 8) AW [] t) t2 ->
  length (received t) < announced PW 0 t -> 6 <= length js -> received t2 <> [].
Proof. exact t93_progress. Qed.
Example C93_progress_partial_nonvacuous :
  let step := l_step 3 4 8 5 10 64 4 in let s := l_init 8 5 (fun _ => 0) 0 0 in
  let is := firstn 3 run2 in let js := firstn 6 (skipn 3 run2) in let t := trace step s is in let t2 := trace step (final step s is) js in
  honest ring 8 10 [] (t ++ t2) /\ fits 4 4 0 0 (t ++ t2) /\ serves ring 8 10 (due_after ring 8 10 [] t) t2 /\
  received t = [] /\ announced 4 0 t = 12 /\ length js = 6.
Proof.
  cbn zeta. split; [apply honestb_ok; vm_compute; reflexivity|]. split; [apply fitsb_ok; vm_compute; reflexivity|]. split; [apply servesb_ok; vm_compute; reflexivity|]. vm_compute. auto.
Qed.

(** with ITEMS_IN_BLOCK = 2^PTR_WIDTH (accepted) items which were not announced are read, and the pointer to the next node is given out as an item *)
Theorem C93_pointer_width_refuted : exists ID ID_LAST CAP ITEMS AW a PW (mem : nat -> nat) (is : list l_in),
  ID <> ID_LAST /\ 4 <= CAP /\ keeps (tl is) /\
  let t := trace (l_step ID ID_LAST CAP ITEMS AW (8 * 2 ^ a) PW) (l_init CAP ITEMS (fun _ => 0) 0 0) is in
  honest mem (2 ^ a) AW [] t /\ fits ID_LAST PW 0 0 t /\ announced PW 0 t = 3 /\ length (received t) = 20 /\
  received t <> map (item mem (2 ^ a) AW ITEMS 64) (seq 0 20).
Proof.
  exists 3, 4, 8, 16, 10, 3, 4, (loop1 16), run3. split; [discriminate|]. split; [apply Nat.leb_le; reflexivity|]. split; [apply keeps_ok; vm_compute; reflexivity|]. cbn zeta.
  split; [apply honestb_ok; vm_compute; reflexivity|]. split; [apply fitsb_ok; vm_compute; reflexivity|]. split; [vm_compute; reflexivity|]. split; [vm_compute; reflexivity|]. vm_compute. discriminate.
Qed.
(** with 8 bit words the address is kept in units of two bytes *)
Theorem C93_bytes_refuted : exists ID ID_LAST CAP ITEMS AW PW (mem : nat -> nat) (is : list l_in),
  ID <> ID_LAST /\ 4 <= CAP /\ ITEMS < 2 ^ PW /\ keeps (tl is) /\
  let t := trace (l_step ID ID_LAST CAP ITEMS AW 8 PW) (l_init CAP ITEMS (fun _ => 0) 0 0) is in
  honest mem 1 AW [] t /\ fits ID_LAST PW 0 0 t /\ received t <> map (item mem 1 AW ITEMS 64) (seq 0 (length (received t))).
Proof.
  exists 3, 4, 8, 5, 8, 4, (fun a => 100 + a), run4. split; [discriminate|]. split; [apply Nat.leb_le; reflexivity|]. split; [apply Nat.ltb_lt; reflexivity|]. split; [apply keeps_ok; vm_compute; reflexivity|]. cbn zeta.
  split; [apply honestb_ok; vm_compute; reflexivity|]. split; [apply fitsb_ok; vm_compute; reflexivity|]. vm_compute. discriminate.
Qed.

Print Assumptions C93_list_read_partial.
Print Assumptions C93_progress_partial.
Print Assumptions C93_pointer_width_refuted.
Print Assumptions C93_bytes_refuted.
