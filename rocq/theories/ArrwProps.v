(** ArrayBuff_writer (hwtLib/structManipulators/arrayBuff_writer.py): items are collected and written to a circular array in the memory. *)
From Verif Require Import Base ArrwModel ArrwSpec ArrwProofs ArrwCases.

(** C92: the memory gets item number k at the cell k mod ITEMS of the array, in order, every request with the exact number of words and the mark of the last one; for BUFF_DEPTH <= 16, ITEMS >= BUFF_DEPTH, TIMEOUT >= 2 and words of 2, 4, 8... bytes. *)
Theorem C92_array_written_partial :
  forall (A : Type) (AW a BD TIMEOUT ITEMS : nat), elaborates BD = true /\ BD <= 16 -> BD <= ITEMS -> 2 <= TIMEOUT -> 1 <= a <= AW ->
  forall (m0 : nat -> A) (d0 : A) (s0 b0 : nat) (i0 : aw_in A) (base : nat), i_bv i0 = true -> i_bd i0 = base -> base < 2 ^ AW -> base mod 2 ^ a = 0 ->
  forall is, keeps_base is ->
  let t := trace (aw_step AW (8 * 2 ^ a) BD TIMEOUT ITEMS) (aw_init BD TIMEOUT ITEMS m0 d0 s0 b0) (i0 :: is) in
  exists l, written (8 * 2 ^ a / 8) AW None (reqs t) (words t) = Some l /\
            map snd l = firstn (length (words t)) (items t) /\
            map fst l = map (cell (8 * 2 ^ a / 8) AW ITEMS base) (seq 0 (length (words t))).
Proof. exact @t92_written. Qed.
Example C92_array_written_partial_nonvacuous :
  elaborates 16 = true /\ keeps_base (tl (slow 64 90)) /\
  let t := trace (aw_step 10 64 16 8 24) (aw_init 16 8 24 (fun _ => 0) 0 0 0) (slow 64 90) in
  reqs t = [(64, 10); (152, 12); (64, 15); (192, 7)] /\ length (words t) = 48 /\ firstn 3 (items t) = [100; 101; 102].
Proof. split; [reflexivity|]. split; [repeat constructor|]. vm_compute. auto. Qed.

(** C92: uploaded counts the items which are acknowledged to be in the memory *)
Theorem C92_uploaded_partial :
  forall (A : Type) (AW a BD TIMEOUT ITEMS : nat), elaborates BD = true /\ BD <= 16 -> BD <= ITEMS -> 2 <= TIMEOUT -> 1 <= a <= AW ->
  forall (m0 : nat -> A) (d0 : A) (s0 b0 : nat) (i0 : aw_in A) (base : nat), i_bv i0 = true -> i_bd i0 = base -> base < 2 ^ AW -> base mod 2 ^ a = 0 ->
  forall is i, keeps_base is -> i_bv i = false ->
  let s := aw_init BD TIMEOUT ITEMS m0 d0 s0 b0 in let step := aw_step AW (8 * 2 ^ a) BD TIMEOUT ITEMS in
  o_uploaded (snd (step (final step s (i0 :: is)) i)) = acked 0 0 (trace step s (i0 :: is)) mod 2 ^ 16.
Proof. exact @t92_uploaded. Qed.
Example C92_uploaded_partial_nonvacuous :
  let s := aw_init 16 8 24 (fun _ => 0) 0 0 0 in let step := aw_step 10 64 16 8 24 in
  o_uploaded (snd (step (final step s (slow 64 90)) (mk_ai false 0 true true true true false 0))) = 48 /\ length (words (trace step s (slow 64 90))) = 48.
Proof. vm_compute. auto. Qed.

(** C92: a waiting item is not left in the buffer: if the datapump serves, a word is written within TIMEOUT + 4 cycles *)
Theorem C92_progress_partial :
  forall (A : Type) (AW a BD TIMEOUT ITEMS : nat), elaborates BD = true /\ BD <= 16 -> BD <= ITEMS -> 2 <= TIMEOUT -> 1 <= a <= AW ->
  forall (m0 : nat -> A) (d0 : A) (s0 b0 : nat) (i0 : aw_in A) (base : nat), i_bv i0 = true -> i_bd i0 = base -> base < 2 ^ AW -> base mod 2 ^ a = 0 ->
  forall is js, keeps_base (is ++ js) ->
  let s := aw_init BD TIMEOUT ITEMS m0 d0 s0 b0 in let step := aw_step AW (8 * 2 ^ a) BD TIMEOUT ITEMS in
  length (words (trace step s (i0 :: is))) < length (items (trace step s (i0 :: is))) ->
  serves (trace step (final step s (i0 :: is)) js) -> TIMEOUT + 4 <= length js ->
  length (words (trace step s (i0 :: is))) < length (words (trace step s ((i0 :: is) ++ js))).
Proof. exact @t92_progress. Qed.
Example C92_progress_partial_nonvacuous :
  let s := aw_init 16 8 24 (fun _ => 0) 0 0 0 in let step := aw_step 10 64 16 8 24 in
  let is := go 64 2 in let js := map (fun _ => mk_ai false 0 true true true true false 0) (seq 0 12) in
  length (words (trace step s is)) = 0 /\ length (items (trace step s is)) = 2 /\ serves (trace step (final step s is) js) /\ length (words (trace step s (is ++ js))) = 2.
Proof. split; [vm_compute; reflexivity|]. split; [vm_compute; reflexivity|]. split; [apply servesb_ok; vm_compute; reflexivity|vm_compute; reflexivity]. Qed.

(** BUFF_DEPTH = 20 passes the check of elaboration, but the length of the request is cut to 4 bits *)
Theorem C92_long_buffer_refuted : exists (AW a BD TIMEOUT ITEMS : nat) (is : list (aw_in nat)), elaborates BD = true /\ BD <= ITEMS /\
  let t := trace (aw_step AW (8 * 2 ^ a) BD TIMEOUT ITEMS) (aw_init BD TIMEOUT ITEMS (fun _ => 0) 0 0 0) is in
  written (2 ^ a) AW None (reqs t) (words t) = None.
Proof. exists 10, 3, 20, 100, 64, (go 64 60). split; [reflexivity|]. split; [apply Nat.leb_le; reflexivity|]. vm_compute. reflexivity. Qed.
(** an array with less items than the buffer is overrun: address 0x80 is behind the array of 7 words at 0x40 *)
Theorem C92_small_array_refuted : exists (AW a BD TIMEOUT ITEMS base : nat) (is : list (aw_in nat)), elaborates BD = true /\
  let t := trace (aw_step AW (8 * 2 ^ a) BD TIMEOUT ITEMS) (aw_init BD TIMEOUT ITEMS (fun _ => 0) 0 0 0) is in
  exists l w, written (2 ^ a) AW None (reqs t) (words t) = Some l /\ In w l /\ base + ITEMS * 2 ^ a <= fst w.
Proof. exists 10, 3, 16, 100, 7, 64, (go 64 60). split; [reflexivity|]. eexists. exists (128, 108). split; [vm_compute; reflexivity|]. split; [do 8 right; left; reflexivity|]. apply Nat.leb_le. reflexivity. Qed.
(** with 8 bit data only every second byte is written *)
Theorem C92_bytes_refuted : exists (AW DW BD TIMEOUT ITEMS base : nat) (is : list (aw_in nat)), elaborates BD = true /\ BD <= 16 /\ BD <= ITEMS /\ DW = 8 /\
  let t := trace (aw_step AW DW BD TIMEOUT ITEMS) (aw_init BD TIMEOUT ITEMS (fun _ => 0) 0 0 0) is in
  exists l, written 1 AW None (reqs t) (words t) = Some l /\ map fst l <> map (cell 1 AW ITEMS base) (seq 0 (length (words t))).
Proof. exists 10, 8, 16, 4, 64, 64, (go 64 20). split; [reflexivity|]. split; [apply Nat.leb_le; reflexivity|]. split; [apply Nat.leb_le; reflexivity|]. split; [reflexivity|]. eexists. split; [vm_compute; reflexivity|]. vm_compute. discriminate. Qed.

Print Assumptions C92_array_written_partial.
Print Assumptions C92_uploaded_partial.
Print Assumptions C92_progress_partial.
Print Assumptions C92_long_buffer_refuted.
Print Assumptions C92_small_array_refuted.
Print Assumptions C92_bytes_refuted.
