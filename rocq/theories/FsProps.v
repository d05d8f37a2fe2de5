(** C102, C103: Axi4S_footerSplit *)
From Verif Require Import Base FsModel FsSpec FsProofs FsCases.

(** for frames not shorter than the footer: on the first output frames without the footer, on the second one the footers, in the
    order of the frames; the part of the frame sent so far is a prefix of it *)
Theorem C102_split : forall byte B F, 1 <= B -> 1 <= F -> forall (ws : list (word byte)) is, length ws = LA B F + 1 ->
  let t := trace (fs_step B F) (fs_init B ws) is in
  Forall (word_ok B) (accepted t) -> Forall (fun f => F <= length f) (frames [] (accepted t)) ->
  let fs := frames [] (accepted t) in
  (exists n, sent_frames (sent0 t) n (map (data_of F) fs) (rest [] (accepted t))) /\
  (exists n, sent_frames (sent1 t) n (map (foot_of F) fs) []).
Proof. exact @fs_split. Qed.
Print Assumptions C102_split.
(** all complete frames leave without other words on the input *)
Theorem C102_drained : forall byte B F, 1 <= B -> 1 <= F -> forall (ws : list (word byte)) is ds, length ws = LA B F + 1 -> LA B F + 1 <= length ds ->
  let t := trace (fs_step B F) (fs_init B ws) (is ++ map (fun w => mk_i false w true true) ds) in
  Forall (word_ok B) (accepted t) -> Forall (fun f => F <= length f) (frames [] (accepted t)) ->
  let fs := frames [] (accepted t) in
  frames [] (sent0 t) = map (data_of F) fs /\ frames [] (sent1 t) = map (foot_of F) fs /\ rest [] (sent1 t) = [].
Proof. exact @fs_drained. Qed.
Print Assumptions C102_drained.
(** no wait cycles if outputs are ready *)
Theorem C102_rate : forall byte B F (s : fs_state byte) i, i_r0 i = true -> i_r1 i = true -> o_rd (snd (fs_step B F s i)) = true.
Proof. exact @fs_rate. Qed.
Print Assumptions C102_rate.
Example C102_witness : let t := trace (fs_step 2 3) (fs_init 2 (regs0 3)) (ins ++ map (fun w => mk_i false w true true) drain) in
  LA 2 3 + 1 = 3 /\ Forall (word_ok 2) (accepted t) /\ Forall (fun f => 3 <= length f) (frames [] (accepted t)) /\
  frames [] (accepted t) = [[1; 2; 3; 4; 5; 6]; [11; 12; 13]; [21; 22; 23; 24]] /\ rest [] (accepted t) = [31; 32] /\
  frames [] (sent0 t) = [[1; 2; 3]; []; [21]] /\ frames [] (sent1 t) = [[4; 5; 6]; [11; 12; 13]; [22; 23; 24]].
Proof.
  assert (W : forall a b n l, 1 <= n <= 2 -> (l = false -> n = 2) -> word_ok 2 (wd a b n l)) by (intros; split; [reflexivity|exists n; auto]).
  cbv zeta. split; [reflexivity|]. split; [|split; [|vm_compute; repeat split; reflexivity]].
  - match goal with |- Forall _ ?a => let v := eval vm_compute in a in change a with v end.
    repeat (constructor; [split; [reflexivity|]; (exists 2; split; [lia|split; [reflexivity|reflexivity]]) || (exists 1; split; [lia|split; [reflexivity|discriminate]])|]). constructor.
  - vm_compute. repeat constructor.
Qed.

(** an offered word stays until it is taken, if the other sink is ready in the next cycle and the source keeps its word *)
Theorem C103_held_partial : forall byte B F, 1 <= B -> 1 <= F -> forall (ws : list (word byte)) is i i', length ws = LA B F + 1 ->
  let s := final (fs_step B F) (fs_init B ws) is in
  let A := accepted (trace (fs_step B F) (fs_init B ws) is) ++ (if i_v i then [i_w i] else []) in
  Forall (word_ok B) A -> Forall (fun f => F <= length f) (frames [] A) ->
  let o := snd (fs_step B F s i) in let o' := snd (fs_step B F (fst (fs_step B F s i)) i') in
  (i_v i = true -> o_rd o = false -> i_v i' = true) ->
  (o0_v o = true -> i_r0 i = false -> i_r1 i' = true -> o0_v o' = true /\ o0_w o' = o0_w o) /\
  (o1_v o = true -> i_r1 i = false -> i_r0 i' = true -> o1_v o' = true /\ o1_w o' = o1_w o).
Proof. exact @fs_held. Qed.
Print Assumptions C103_held_partial.
Example C103_held_witness : let s := final (fs_step 2 3) (fs_init 2 (regs0 3)) (firstn 5 ins) in let i := mk_i false (wd 0 0 0 false) true false in
  let o := snd (fs_step 2 3 s i) in o1_v o = true /\ w_d (o1_w o) = [3; 4] /\ w_k (o1_w o) = [false; true].
Proof. vm_compute. repeat split; reflexivity. Qed.
(** sinks which wait for valid get nothing for ever *)
Theorem C103_deadlock_refuted : exists is : list (fs_in nat), let s := final (fs_step 2 1) (fs_init 2 (regs0 2)) is in
  frames [] (accepted (trace (fs_step 2 1) (fs_init 2 (regs0 2)) is)) = [[1; 2]] /\ sent0 (trace (fs_step 2 1) (fs_init 2 (regs0 2)) is) = [] /\
  forall is', Forall (fun i => i_r0 i = false /\ i_r1 i = false) is' ->
  Forall (fun c => o0_v (snd c) = false /\ o1_v (snd c) = false) (trace (fs_step 2 1) s is').
Proof. exact short_deadlock. Qed.
Print Assumptions C103_deadlock_refuted.
(** an offered word is withdrawn *)
Theorem C103_held_refuted : exists (is : list (fs_in nat)) i i', let s := final (fs_step 2 1) (fs_init 2 (regs0 2)) is in
  Forall (word_ok 2) (accepted (trace (fs_step 2 1) (fs_init 2 (regs0 2)) is)) /\
  i_v i = false /\ o0_v (snd (fs_step 2 1 s i)) = true /\ i_r0 i = false /\ o0_v (snd (fs_step 2 1 (fst (fs_step 2 1 s i)) i')) = false.
Proof.
  exists short, (mk_i false (wd 0 0 0 false) false true), (mk_i false (wd 0 0 0 false) false false). split; [|vm_compute; repeat split; reflexivity].
  constructor; [|constructor]. split; [reflexivity|]. exists 2. repeat split; auto.
Qed.
Print Assumptions C103_held_refuted.
