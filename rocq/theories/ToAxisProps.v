(** C43: DataRdVldToAxi4Stream. *)
From Verif Require Import Base BaseFacts StreamSpec ToAxisModel ToAxisSpec ToAxisProofs HsRegModel.

(** MAX_FRAME_WORDS only: all words in order, last on each n-th word *)
Theorem C43_max_frame_words : forall A n (h : list (ta_in A)), 1 <= n ->
  let t := map ta_obs (trace (ta_max_step n) 0 h) in
  map fst (delivered t) = accepted t /\
  forall k w, nth_error (delivered t) k = Some w -> snd w = ((k + 1) mod n =? 0).
Proof. intros A n h Hn. cbv zeta. destruct (max_run n h Hn) as (H1 & _ & H3). split; assumption. Qed.
Print Assumptions C43_max_frame_words.
Example C43_max_frame_words_witness :
  delivered (map ta_obs (trace (ta_max_step 2) 0 [mk_ti true 5 true; mk_ti true 6 false; mk_ti true 6 true; mk_ti true 7 true])) =
  [(5, false); (6, true); (7, false)].
Proof. reflexivity. Qed.

(** with IN_TIMEOUT, without and with MAX_FRAME_WORDS: all words in order, at most one of them inside *)
Theorem C43_timeout_words : forall A t d0 (h : list (ta_in A)), exists held, length held <= 1 /\
  accepted (map ta_obs (trace (ta_time_step t) (tt_init d0 t) h)) =
  map fst (delivered (map ta_obs (trace (ta_time_step t) (tt_init d0 t) h))) ++ held.
Proof. exact @time_words. Qed.
Print Assumptions C43_timeout_words.
Theorem C43_both_words : forall A t n d0 (h : list (ta_in A)), exists held, length held <= 1 /\
  accepted (map ta_obs (trace (ta_both_step t n) (tb_init d0 t) h)) =
  map fst (delivered (map ta_obs (trace (ta_both_step t n) (tb_init d0 t) h))) ++ held.
Proof. exact @both_words. Qed.
Print Assumptions C43_both_words.
(** both: a frame has at most n words (the comparison with n-1 must fit to the register, otherwise elaboration fails) *)
Theorem C43_both_frame_size : forall A t n d0 (h : list (ta_in A)), 1 <= n -> n - 1 < 2 ^ log2ceil (n - 1) ->
  forall k, open_len (firstn k (map snd (delivered (map ta_obs (trace (ta_both_step t n) (tb_init d0 t) h))))) < n.
Proof. exact @both_frames_le. Qed.
Print Assumptions C43_both_frame_size.
Example C43_both_witness : 2 - 1 < 2 ^ log2ceil (2 - 1) /\
  delivered (map ta_obs (trace (ta_both_step 4 2) (tb_init 0 4) [mk_ti true 1 true; mk_ti true 2 true; mk_ti true 3 true; mk_ti true 4 true])) =
  [(1, false); (2, true); (3, false)].
Proof. split; [vm_compute; lia|reflexivity]. Qed.

(** IN_TIMEOUT only: with a ready consumer the waiting word leaves with last within IN_TIMEOUT cycles without input *)
Theorem C43_timeout_closes : forall A t d0 (h : list (ta_in A)) w d, 1 <= t ->
  let tr := map ta_obs (trace (ta_time_step t) (tt_init d0 t) h) in
  accepted tr = map fst (delivered tr) ++ [w] ->
  In (w, true) (delivered (map ta_obs (trace (ta_time_step t) (final (ta_time_step t) (tt_init d0 t) h) (repeat (idle d) t)))).
Proof. exact @time_live. Qed.
Print Assumptions C43_timeout_closes.
Example C43_timeout_closes_witness :
  let tr := map ta_obs (trace (ta_time_step 3) (tt_init 0 3) [mk_ti true 1 true; mk_ti true 2 true]) in
  accepted tr = map fst (delivered tr) ++ [2].
Proof. reflexivity. Qed.
(** with both parameters the last word of a full frame waits for the next input for ever *)
Theorem C43_both_closes_refuted : exists (h : list (ta_in nat)) w,
  let tr := map ta_obs (trace (ta_both_step 4 2) (tb_init 0 4) h) in
  accepted tr = map fst (delivered tr) ++ [w] /\
  forall n, delivered (map ta_obs (trace (ta_both_step 4 2) (final (ta_both_step 4 2) (tb_init 0 4) h) (repeat (idle 0) n))) = [].
Proof.
  exists ex_stuck, 2. cbv zeta. split; [reflexivity|]. intros n.
  change (final (ta_both_step 4 2) (tb_init 0 4) ex_stuck) with (mk_tb (mk_stage KLat true 2) 3 1). rewrite stuck_run.
  induction n as [|n IH]; [reflexivity|]. cbn [repeat map delivered]. exact IH.
Qed.
Print Assumptions C43_both_closes_refuted.
(** the timeout is not restarted by a word: a frame is closed although the input was never idle for 3 cycles *)
Theorem C43_timeout_restart_refuted : exists h : list (ta_in nat),
  map ti_vld h = [true; false; true; false; false] /\
  delivered (map ta_obs (trace (ta_time_step 3) (tt_init 0 3) h)) = [(1, false); (2, true)].
Proof. exists [mk_ti true 1 true; idle 0; mk_ti true 2 true; idle 0; idle 0]. split; reflexivity. Qed.
Print Assumptions C43_timeout_restart_refuted.
