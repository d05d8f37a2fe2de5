From Verif Require Import Base MeasModel MeasSpec MeasProofs.

(** C85: the words come out in order, a frame is closed after MAX_LEN + 1 words, and the sizes are the sizes of the frames in bytes *)
Theorem C85_measuring_fifo_partial : forall A MAX SD B lb strb, 1 <= MAX -> 2 <= SD -> B = 2 ^ lb -> 1 <= lb ->
  forall w0 ms s0 md (is : list (me_i A)), Forall (fun i => strb = true -> strb_ok B (mi_w i)) is ->
  let t := trace (meas_step MAX SD B strb) (meas_init MAX SD w0 ms s0 md) is in let taken := flat_map ms_taken t in
  (exists inside, cut MAX 0 taken = flat_map ms_sent t ++ inside /\ length inside <= 2 * (MAX + 1) + 1) /\
  (exists inside, sizes MAX B strb 0 taken = flat_map ms_size t ++ inside /\ length inside <= SD + 1).
Proof. exact (@meas_all). Qed.
Print Assumptions C85_measuring_fifo_partial.
Theorem C85_measuring_fifo_ready_partial : forall A MAX SD B lb strb, 1 <= MAX -> 2 <= SD -> B = 2 ^ lb -> 1 <= lb ->
  forall w0 ms s0 md (is : list (me_i A)) i, Forall (fun i => strb = true -> strb_ok B (mi_w i)) is ->
  let s := final (meas_step MAX SD B strb) (meas_init MAX SD w0 ms s0 md) is in let t := trace (meas_step MAX SD B strb) (meas_init MAX SD w0 ms s0 md) is in
  length (flat_map ms_taken t) < length (flat_map ms_sent t) + 2 * MAX + 1 ->
  length (sizes MAX B strb 0 (flat_map ms_taken t)) < length (flat_map ms_size t) + SD - 1 -> mo_rd (snd (meas_step MAX SD B strb s i)) = true.
Proof. exact (@meas_ready). Qed.
Print Assumptions C85_measuring_fifo_ready_partial.
Theorem C85_measuring_fifo_stable_partial : forall A MAX SD B lb strb, 1 <= MAX -> 2 <= SD -> B = 2 ^ lb -> 1 <= lb ->
  forall w0 ms s0 md (is : list (me_i A)) i j, Forall (fun i => strb = true -> strb_ok B (mi_w i)) is ->
  let s := final (meas_step MAX SD B strb) (meas_init MAX SD w0 ms s0 md) is in
  let o := snd (meas_step MAX SD B strb s i) in let o' := snd (meas_step MAX SD B strb (fst (meas_step MAX SD B strb s i)) j) in
  (mo_w o <> None -> mi_rd i = false -> mo_w o' = mo_w o) /\ (mo_s o <> None -> mi_srd i = false -> mo_s o' = mo_s o).
Proof. exact (@meas_stable). Qed.
Print Assumptions C85_measuring_fifo_stable_partial.
(** errorAlignment: a word with less bytes was inside of a frame; it is reported before the word is sent *)
Theorem C85_measuring_fifo_error_partial : forall A MAX SD B lb strb, 1 <= MAX -> 2 <= SD -> B = 2 ^ lb -> 1 <= lb ->
  forall w0 ms s0 md (is : list (me_i A)) i, strb = true -> Forall (fun i => strb = true -> strb_ok B (mi_w i)) is ->
  let s := final (meas_step MAX SD B strb) (meas_init MAX SD w0 ms s0 md) is in let t := trace (meas_step MAX SD B strb) (meas_init MAX SD w0 ms s0 md) is in
  let taken := flat_map ms_taken t in
  (mo_err (snd (meas_step MAX SD B strb s i)) = true -> Exists (misaligned B strb) taken) /\
  (Exists (misaligned B strb) (firstn (length (flat_map ms_sent t)) taken) -> mo_err (snd (meas_step MAX SD B strb s i)) = true).
Proof. exact (@meas_error). Qed.
Print Assumptions C85_measuring_fifo_error_partial.

Notation C85_w d k l := (mk_mw d (repeat true k ++ repeat false (2 - k)) l).
Notation C85_in w := (mk_mei true w true true).
Notation C85_idle := (mk_mei false (C85_w 0 0 false) true true).
(** a frame of 3 bytes, and 4 words of which the first three are cut off (MAX_LEN = 2) *)
Example C85_run : let t := trace (meas_step 2 4 2 true) (meas_init 2 4 (C85_w 0 0 false) (fun _ => 0) 0 (fun _ => C85_w 0 0 false))
    ([C85_in (C85_w 1 2 false); C85_in (C85_w 2 1 true); C85_in (C85_w 3 2 false); C85_in (C85_w 4 2 false); C85_in (C85_w 5 2 false); C85_in (C85_w 6 1 true)] ++ repeat C85_idle 6) in
  flat_map ms_size t = [3; 6; 1] /\ map (fun w => (mw_d w, mw_l w)) (flat_map ms_sent t) = [(1, false); (2, true); (3, false); (4, false); (5, true); (6, true)].
Proof. vm_compute. split; reflexivity. Qed.

(** with DATA_WIDTH = 8 the sizes are doubled *)
Theorem C85_byte_stream_refuted : exists MAX SD (is : list (me_i nat)), let w0 := mk_mw 0 [true] false in
  let t := trace (meas_step MAX SD 1 true) (meas_init MAX SD w0 (fun _ => 0) 0 (fun _ => w0)) is in
  1 <= MAX /\ 2 <= SD /\ Forall (fun i => strb_ok 1 (mi_w i)) is /\ sizes MAX 1 true 0 (flat_map ms_taken t) = [2] /\ flat_map ms_size t = [4].
Proof.
  exists 4, 4, ([mk_mei true (mk_mw 1 [true] false) true true; mk_mei true (mk_mw 2 [true] true) true true] ++ repeat (mk_mei false (mk_mw 0 [true] false) true true) 4).
  split; [repeat constructor|]. split; [repeat constructor|]. split; [repeat (constructor; [exists 1; split; [constructor|reflexivity]|]); constructor|]. vm_compute. split; reflexivity.
Qed.
Print Assumptions C85_byte_stream_refuted.
