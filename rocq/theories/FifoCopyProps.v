(** Property C49. *)
From Verif Require Import Base BaseFacts HsRegModel FifoCopyModel FifoCopySpec FifoCopyProofs.

(** C49: FifoCopy stores DEPTH - 1 words, its flags are exact, reads give the accepted words in order and a replay restarts
    at the first word of the frame. *)
Theorem C49_fifo_copy :
  forall (A : Type) (DEPTH : nat) (m0 : nat -> A) (d0 : A) (is : list (fc_in A)),
    1 < DEPTH -> fcopy_law (DEPTH - 1) [] 0 0 (trace (fc_step DEPTH) (fc_init m0 d0) is).
Proof. exact c49. Qed.
Print Assumptions C49_fifo_copy.

(** reads 1 2, replay 1, 2, the next frame starts at 3 and is replayed *)
Example C49_case :
  map (fun c => (fi_ren (fst c) && negb (fo_rwait (snd c)), fo_data (snd c)))
      (trace (fc_step 4) (fc_init (fun _ => 0) 0) c49_hist) =
  [(false, 0); (true, 1); (true, 2); (true, 1); (true, 2); (true, 3); (false, 3); (true, 3)].
Proof. vm_compute. reflexivity. Qed.

(** Outside of the law: a replay requested while nothing is stored hands out memory which was never written, and so do the
    reads after it. *)
Theorem C49_empty_replay_garbage :
  exists is : list (fc_in nat),
    let t := trace (fc_step 4) (fc_init (fun k => 100 + k) 0) is in
    (forall c, In c t -> fi_wen (fst c) = false) /\
    map (fun c => (fi_ren (fst c) && negb (fo_rwait (snd c)), fo_data (snd c))) t = [(true, 100); (true, 101)].
Proof. exact c49_empty. Qed.
Print Assumptions C49_empty_replay_garbage.

(** C49: Axi4SFifoCopy delivers the accepted frames in order, each once and once more for every replay request which came with
    its last word; the replays carry the replacement id. *)
Theorem C49_axis_fifo_copy :
  forall (D ID : Type) (DEPTH : nat) (m0 : nat -> cword D ID) (d0 : cword D ID) (r0 : ID) (is : list (ac_in D ID)),
    2 < DEPTH -> copy_law [] 0 0 None (trace (ac_step DEPTH) (ac_init m0 d0 r0) is).
Proof. exact c49_axis. Qed.
Print Assumptions C49_axis_fifo_copy.

Example C49_axis_case :
  map (fun w : cword nat nat => (cw_data w, cw_id w))
      (ac_delivered (trace (ac_step 5) (ac_init (fun _ => mk_cw 0 0 false) (mk_cw 0 0 false) 0) c49_axis_hist)) =
  [(1, 3); (2, 3); (1, 7); (2, 7); (4, 5)].
Proof. vm_compute. reflexivity. Qed.

(** C49: it cannot get stuck while the unfinished frame is shorter than DEPTH - 2 words: it accepts a word now, or offers one
    now or in the next cycle. *)
Theorem C49_axis_fifo_copy_live_partial :
  forall (D ID : Type) (DEPTH : nat) (m0 : nat -> cword D ID) (d0 : cword D ID) (r0 : ID) (is : list (ac_in D ID))
         (i j : ac_in D ID),
    2 < DEPTH ->
    let s0 := ac_init m0 d0 r0 in
    let s := final (ac_step DEPTH) s0 is in
    open_frame (ac_accepted (trace (ac_step DEPTH) s0 is)) < DEPTH - 2 ->
    ao_rd (snd (ac_step DEPTH s i)) = true \/ ao_vld (snd (ac_step DEPTH s i)) = true \/
    ao_vld (snd (ac_step DEPTH (fst (ac_step DEPTH s i)) j)) = true.
Proof. exact c49_live. Qed.
Print Assumptions C49_axis_fifo_copy_live_partial.

Example C49_live_case :
  open_frame (ac_accepted (trace (ac_step 5) (ac_init (fun _ => mk_cw 0 0 false) (mk_cw 0 0 false) 0) (firstn 1 c49_axis_hist))) = 1.
Proof. vm_compute. reflexivity. Qed.

(** C49 (finding): the documented condition DEPTH > MAX_FRAME_LEN is not sufficient: with DEPTH = 4 the third word of a frame of
    three words is never accepted although both sides are always willing. *)
Theorem C49_axis_fifo_copy_live_refuted :
  exists is : list (ac_in nat nat), forall js,
    let tr l := trace (ac_step 4) (ac_init (fun _ => mk_cw 0 0 false) (mk_cw 0 0 false) 0) l in
    (forall i, In i is -> ai_vld i = true /\ ai_rd i = true) /\
    map (@cw_data nat nat) (map ai_word is) = [1; 2; 3; 3; 3] /\
    map (@cw_data nat nat) (ac_accepted (tr (is ++ js))) = [1; 2] /\
    map (@cw_data nat nat) (ac_delivered (tr (is ++ js))) = [1; 2].
Proof. exact c49_deadlock. Qed.
Print Assumptions C49_axis_fifo_copy_live_refuted.

(** C49: Axi4SRegCopy obeys the same law for frames of one word, if there is no id signal or dataOut_copy_frame is raised only
    with dataOut.valid. *)
Theorem C49_axis_reg_copy_partial :
  forall (D ID : Type) (d0 : cword D ID) (is : list (ac_in D ID)),
    let t := trace rc_step (rc_init d0) is in
    (forall c, In c t -> ai_vld (fst c) = true -> cw_last (ai_word (fst c)) = true) ->
    (forall x y : ID, x = y) \/ (forall c, In c t -> ai_copy (fst c) = true -> ao_vld (snd c) = true) ->
    copy_law [] 0 0 None t.
Proof. exact c49_reg. Qed.
Print Assumptions C49_axis_reg_copy_partial.

Example C49_reg_case :
  map (fun w : cword nat nat => (cw_data w, cw_id w))
      (ac_delivered (trace rc_step (rc_init (mk_cw 0 0 false))
         [mk_aci true (mk_cw 1 3 true) true false 0; mk_aci true (mk_cw 2 4 true) true true 7; mk_aci true (mk_cw 2 4 true) true false 0;
          mk_aci false (mk_cw 0 0 true) true false 0])) = [(1, 3); (1, 7); (2, 4)].
Proof. vm_compute. reflexivity. Qed.

(** C49 (finding): otherwise a request while dataOut is not valid overwrites the id of the word being accepted. *)
Theorem C49_axis_reg_copy_refuted :
  exists is : list (ac_in nat nat),
    let t := trace rc_step (rc_init (mk_cw 0 0 false)) is in
    (forall c, In c t -> ai_vld (fst c) = true -> cw_last (ai_word (fst c)) = true) /\
    ac_accepted t = [mk_cw 5 1 true] /\ ac_delivered t = [mk_cw 5 9 true] /\ ~ copy_law [] 0 0 None t.
Proof. exact c49_id_bad. Qed.
Print Assumptions C49_axis_reg_copy_refuted.
