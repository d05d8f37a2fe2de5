(** Axi4S_en, Axi4SJoinPrioritized and the stored bursts *)
From Verif Require Import Base JoinSplitModel JoinSplitSpec AxisMiscModel AxisMiscSpec AxisMiscProofs.

(** C52, only while en does not fall inside of a frame *)
Theorem C52_axis_en_partial : forall (A : Type) (is : list (en_in A)), switch_law false false (trace en_step false is).
Proof. intros A is. exact (en_run false is). Qed.
Print Assumptions C52_axis_en_partial.

(** en falls after the first word of a frame: the rest of the frame is stopped *)
Theorem C52_axis_en_refuted : exists is : list (en_in nat), ~ switch_law true false (trace en_step false is).
Proof. exists en_bad. exact en_bad_law. Qed.
Print Assumptions C52_axis_en_refuted.

Example c52_run : map (fun o => (e_rd o, e_ovld o)) (outs en_step false
  [mk_eni true 1 false true false; mk_eni true 1 false true true; mk_eni true 2 true false true; mk_eni true 2 true true true; mk_eni true 3 true true false])
  = [(false, false); (true, true); (false, true); (true, true); (false, false)].
Proof. vm_compute. reflexivity. Qed.

(** C53 *)
Theorem C53_axis_join_frames : forall (D : Type) (x : bool * D) (n : nat) (is : list (join_in (bool * D))),
  Forall (fun i => length (j_in i) = n) is ->
  frames_law None (trace (ajoin_step x) (repeat false n) is).
Proof. intros D x n is H. exact (ajoin_law x n is H). Qed.
Print Assumptions C53_axis_join_frames.

(** input 0 offers a word in the middle of the frame of input 1 and has to wait; it is (last, data) *)
Example c53_run : map (fun o => (j_rds o, j_data o)) (outs (ajoin_step (false, 0)) (repeat false 2)
  [mk_jin [(false, (true, 9)); (true, (false, 1))] true; mk_jin [(true, (true, 9)); (true, (false, 2))] true;
   mk_jin [(true, (true, 9)); (true, (true, 3))] true; mk_jin [(true, (true, 9)); (true, (true, 4))] true])
  = [([true; true], (false, 1)); ([false; true], (false, 2)); ([false; true], (true, 3)); ([true; false], (true, 9))].
Proof. vm_compute. reflexivity. Qed.

(** C54 one-shot: the words of DATA in order, each once, last exactly on the last one; valid until all are sent *)
Theorem C54_burst_once : forall (A : Type) (x : A) (data : list A), data <> [] -> forall rds : list bool,
  let t := trace (burst_step false x data) 0 rds in
  exists rest, data = map fst (burst_sent t) ++ rest /\
    (forall j w l, nth_error (burst_sent t) j = Some (w, l) -> l = (j + 1 =? length data)) /\
    (forall rd, b_vld (snd (burst_step false x data (final (burst_step false x data) 0 rds) rd)) = true <-> rest <> []).
Proof. intros A x data Hn rds. exact (burst_once_law x data rds). Qed.
Print Assumptions C54_burst_once.

(** C54 with REPEAT *)
Theorem C54_burst_repeat : forall (A : Type) (x : A) (data : list A), data <> [] -> forall rds : list bool,
  let t := trace (burst_step true x data) 0 rds in
  forall j, j < length (burst_sent t) ->
    nth_error (map fst (burst_sent t)) j = nth_error data (j mod length data) /\
    forall w l, nth_error (burst_sent t) j = Some (w, l) -> l = ((j + 1) mod length data =? 0).
Proof. intros A x data Hn rds. exact (burst_rep_law x data Hn rds). Qed.
Print Assumptions C54_burst_repeat.

(** With REPEAT the next round is not offered to a consumer which waits for valid before it becomes ready. *)
Theorem C54_burst_repeat_offer_refuted : exists (data : list nat) (rds : list bool), data <> [] /\
  forall waiting, Forall (fun r => r = false) waiting ->
    Forall (fun o => b_vld o = false) (outs (burst_step true 0 data) (final (burst_step true 0 data) 0 rds) waiting).
Proof. exists [5], [true]. split; [discriminate|exact burst_stuck]. Qed.
Print Assumptions C54_burst_repeat_offer_refuted.

(** DATA of type bytes: the valid bytes which are sent are not those of DATA *)
Theorem C54_burst_bytes_refuted : exists (nb : nat) (data : list nat) (ws : list (list nat)) (rds : list bool),
  burst_words nb 0 data = Some ws /\
  ~ exists rest, data = flat_map (fun w => valid_bytes (burst_strb nb data (snd w)) (fst w))
                                 (burst_sent (trace (burst_step false [] ws) 0 rds)) ++ rest.
Proof.
  exists 2, [1; 2; 3], [[1; 2]; [3; 0]; [3; 0]], [true; true; true]. split; [reflexivity|].
  intros [rest H]. vm_compute in H. discriminate.
Qed.
Print Assumptions C54_burst_bytes_refuted.

Example c54_once : burst_sent (trace (burst_step false 0 [7; 8; 9]) 0 [true; false; true; true; true])
  = [(7, false); (8, false); (9, true)].
Proof. vm_compute. reflexivity. Qed.
Example c54_repeat : burst_sent (trace (burst_step true 0 [7; 8]) 0 [true; false; true; true; true; true])
  = [(7, false); (8, true); (7, false); (8, true)].
Proof. vm_compute. reflexivity. Qed.
