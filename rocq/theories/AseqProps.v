(** C146: Axi4S_eq tells whether a frame carries the constant. *)
From Verif Require Import Base AseqModel AseqSpec AseqProofs.

(** A result for every frame and no other, in every schedule. *)
Theorem C146_one_result : forall (VW DW V : nat) (is : list aq_in),
  length (results (trace (aq_step VW DW V) aq_init is)) = length (frames [] (taken (trace (aq_step VW DW V) aq_init is))).
Proof. intros. apply results_count. Qed.
Print Assumptions C146_one_result.
Example C146_one_result_case :
  let t := trace (aq_step 12 4 0xabc) aq_init [q_ok 0xc false; q_stall 0xb false; q_pause; q_stall 0xa true; q_ok 0xa true] in
  frames [] (taken t) = [[0xc; 0xb; 0xa]] /\ length (results t) = 1.
Proof. vm_compute. split; reflexivity. Qed.

(** A value of several words.  Missing: consumers which are not ready while the frame is under way ([C146_stall_refuted]). *)
Theorem C146_equal_partial : forall (VW DW V : nat) (is : list aq_in), 0 < DW -> DW < VW -> V < 2 ^ VW ->
  in_range DW is -> ready_inside is ->
  let t := trace (aq_step VW DW V) aq_init is in
  Forall (fun f => length f = word_cnt VW DW) (frames [] (taken t)) ->
  results t = map (carries VW DW V) (frames [] (taken t)).
Proof. intros VW DW V is H1 H2 H3 H4 H5 t H6. apply c146_multi; assumption. Qed.
Print Assumptions C146_equal_partial.
Example C146_equal_case :
  let is := [q_ok 0xc false; q_pause; q_ok 0xb false; q_stall 0xf true; q_ok 0xf true; q_ok 0xd false; q_ok 0xb false; q_ok 2 true] in
  let t := trace (aq_step 10 4 0x3bc) aq_init is in
  in_range 4 is /\ ready_inside is /\ Forall (fun f => length f = word_cnt 10 4) (frames [] (taken t)) /\
  frames [] (taken t) = [[0xc; 0xb; 0xf]; [0xd; 0xb; 2]] /\ results t = [true; false].
Proof.
  cbv zeta. split; [|split].
  - repeat (constructor; [vm_compute; lia|]). constructor.
  - repeat (constructor; [cbn; intros; try discriminate; reflexivity|]). constructor.
  - split; [vm_compute; repeat constructor|]. vm_compute. split; reflexivity.
Qed.

(** A value of one word, in every schedule; here each word is a frame. *)
Theorem C146_equal_word : forall (VW DW V : nat) (is : list aq_in), 0 < VW -> VW <= DW ->
  let t := trace (aq1_step VW V) tt is in
  results t = map (fun w => carries VW DW V [fst w]) (taken t).
Proof. intros VW DW V is H1 H2 t. apply c146_single; assumption. Qed.
Print Assumptions C146_equal_word.
Example C146_equal_word_case :
  let t := trace (aq1_step 4 5) tt [q_ok 0x35 true; q_stall 0x36 true; q_ok 0x36 true] in
  map fst (taken t) = [0x35; 0x36] /\ results t = [true; false].
Proof. vm_compute. split; reflexivity. Qed.

(** A frame which carries the value is reported as different and another one as equal if the consumer
    is not ready while a word other than the last one is transferred. *)
Theorem C146_stall_refuted : exists (VW DW V : nat) (a b : list aq_in),
  0 < DW /\ DW < VW /\ V < 2 ^ VW /\ in_range DW (a ++ b) /\
  let ta := trace (aq_step VW DW V) aq_init a in let tb := trace (aq_step VW DW V) aq_init b in
  Forall (fun f => length f = word_cnt VW DW) (frames [] (taken ta) ++ frames [] (taken tb)) /\
  map (carries VW DW V) (frames [] (taken ta)) = [true] /\ results ta = [false] /\
  map (carries VW DW V) (frames [] (taken tb)) = [false] /\ results tb = [true].
Proof.
  exists 12, 4, 0xabc, [q_stall 0xc false; q_ok 0xb false; q_ok 0xa true], [q_stall 0xd false; q_stall 0xb false; q_ok 0xa true].
  split; [lia|]. split; [lia|]. split; [apply Nat.ltb_lt; vm_compute; reflexivity|]. split.
  - repeat (constructor; [vm_compute; lia|]). constructor.
  - split; [vm_compute; repeat constructor|]. vm_compute. repeat split; reflexivity.
Qed.
Print Assumptions C146_stall_refuted.

(** Frames which are not of the size of the value can be reported as equal. *)
Theorem C146_other_sizes : exists (VW DW V : nat) (is : list aq_in),
  0 < DW /\ DW < VW /\ V < 2 ^ VW /\ in_range DW is /\ ready_inside is /\
  let t := trace (aq_step VW DW V) aq_init is in
  map (@length nat) (frames [] (taken t)) = [1; 2] /\ word_cnt VW DW = 3 /\ map (carries VW DW V) (frames [] (taken t)) = [false; false] /\
  results t = [true; true].
Proof.
  exists 12, 4, 0xabc, [q_ok 0xa true; q_ok 0xc false; q_ok 0xa true].
  split; [lia|]. split; [lia|]. split; [apply Nat.ltb_lt; vm_compute; reflexivity|]. split; [|split].
  - repeat (constructor; [vm_compute; lia|]). constructor.
  - repeat (constructor; [cbn; intros; try discriminate; reflexivity|]). constructor.
  - vm_compute. repeat split; reflexivity.
Qed.
Print Assumptions C146_other_sizes.
