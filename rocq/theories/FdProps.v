(** Axi4S_frameDeparser (hwtLib/amba/axis_comp/frame_deparser) for structures of constant size. *)
From Verif Require Import Base FpModel FpSpec FpCases FdModel FdSpec FdProofs FdCases.

(** C97: the words sent are the frames: field j of frame n is its value n (as soon as the words with it are sent). Proved if no word contains an end of one field and a begin of another longer field, or if all fields are offered at once. *)
Theorem C97_frames_partial : forall W fields, proper W fields -> forall vals, (forall j n, is_field fields j -> length (vals j n) = width fields j) ->
  forall is, tidy W fields \/ Forall (together fields) is -> let t := trace (d_step W fields) (d_init W fields) is in supplies fields vals (fun _ => 0) t ->
  forall n j, is_field fields j -> n * nwords W fields + ends_in W fields j < length (sent t) ->
  bits (offset fields j) (width fields j) (concat (firstn (S (ends_in W fields j)) (skipn (n * nwords W fields) (sent t)))) = vals j n.
Proof. exact t_frames. Qed.
(** C97: a value is taken exactly with the word with its end: nothing is lost, nothing is sent twice *)
Theorem C97_taken_partial : forall W fields, proper W fields -> forall vals,
  forall is, tidy W fields \/ Forall (together fields) is -> let t := trace (d_step W fields) (d_init W fields) is in supplies fields vals (fun _ => 0) t ->
  forall j, is_field fields j -> forall n, n < given j t <-> n * nwords W fields + ends_in W fields j < length (sent t).
Proof. exact t_taken. Qed.
Example C97_frames_partial_nonvacuous : proper 8 gl1 /\ tidy 8 gl1 /\ let t := trace (d_step 8 gl1) (d_init 8 gl1) grun1 in supplies gl1 (fvals gl1) (fun _ => 0) t /\
  map (fun j => map (fun n => tonat (fvals gl1 j n)) [0; 1; 2]) [0; 1; 3; 4] = [[3; 14; 25]; [10; 2; 10]; [24; 122; 220]; [31; 158; 29]] /\
  map tonat (sent t) = [3; 250; 24; 0; 31; 14; 242; 122; 0; 158; 25; 250; 220; 0; 29; 36] /\ map (fun j => given j t) [0; 1; 3; 4] = [4; 3; 3; 3].
Proof.
  split; [exact gl1_proper|]. split; [exact gl1_tidy|]. cbn zeta. split; [|vm_compute; auto]. apply (suppliesb_ok gl1 (fvals gl1) _ [0; 0; 0; 0; 0]); [|vm_compute; reflexivity].
  intros j _. do 5 (destruct j as [|j]; [reflexivity|]). destruct j; reflexivity.
Qed.
Example C97_frames_partial_nonvacuous2 : Forall (together gl2) grun3 /\ let t := trace (d_step 16 gl2) (d_init 16 gl2) grun3 in supplies gl2 (fvals gl2) (fun _ => 0) t /\
  map (fun j => map (fun n => tonat (fvals gl2 j n)) [0; 1]) [0; 1] = [[3; 14]; [10; 50]] /\ map tonat (sent t) = [10 * 256 + 3; 0; 50 * 256 + 14; 0].
Proof.
  split; [apply togetherb_ok; vm_compute; reflexivity|].
  cbn zeta. split; [|vm_compute; auto]. apply (suppliesb_ok gl2 (fvals gl2) _ [0; 0]); [|vm_compute; reflexivity]. intros j _. do 2 (destruct j as [|j]; [reflexivity|]). destruct j; reflexivity.
Qed.
(** C97: the output is valid exactly when all fields with a bit in the current word are offered; for every environment *)
Theorem C97_valid : forall W fields, proper W fields ->
  forall is i, let t := trace (d_step W fields) (d_init W fields) is in let o := snd (d_step W fields (final (d_step W fields) (d_init W fields) is) i) in
  (q_v o = true <-> forall j, is_field fields j -> touches W fields j (length (sent t) mod nwords W fields) -> d_v i j = true).
Proof. exact t_valid. Qed.
(** C97: every frame has the number of words of the structure and its last word is marked; for every environment *)
Theorem C97_last : forall W fields, proper W fields ->
  forall is, let t := trace (d_step W fields) (d_init W fields) is in sent_last t = map (fun k => k mod nwords W fields =? nwords W fields - 1) (seq 0 (length (sent t))).
Proof. exact t_last. Qed.
(** C97: the strobe marks exactly the bits of named fields; for every environment *)
Theorem C97_strb : forall W fields, proper W fields ->
  forall is, let t := trace (d_step W fields) (d_init W fields) is in forall k b, k < length (sent t) -> b < W ->
  (nth b (nth k (sent_strb t) []) false = true <-> covered fields (k mod nwords W fields * W + b)).
Proof. exact t_strb. Qed.
Example C97_last_nonvacuous : let t := trace (d_step 8 gl1) (d_init 8 gl1) grun1 in nwords 8 gl1 = 5 /\
  sent_last t = [false; false; false; false; true; false; false; false; false; true; false; false; false; false; true; false] /\ map tonat (firstn 6 (sent_strb t)) = [255; 15; 255; 255; 255; 255] /\
  map (fun c => (q_v (snd c), d_r (fst c))) (firstn 4 t) = [(false, true); (true, true); (false, true); (true, false)].
Proof. vm_compute. auto. Qed.

(** A field which ends in a word where a longer field begins is taken although the longer field is not offered and nothing is sent: the value 3 of the first field is lost, the first frame contains the second value 14. *)
Theorem C97_lost_value_refuted : exists W fields is, proper W fields /\ let t := trace (d_step W fields) (d_init W fields) is in
  supplies fields (fvals fields) (fun _ => 0) t /\ given 0 (firstn 1 t) = 1 /\ sent (firstn 1 t) = [] /\
  tonat (fvals fields 0 0) = 3 /\ tonat (fvals fields 0 1) = 14 /\ tonat (bits (offset fields 0) (width fields 0) (concat (firstn (nwords W fields) (sent t)))) = 14.
Proof.
  exists 16, gl2, grun2. split. { split; [lia|]. split; [discriminate|]. cbn. intros f [<-|[<-|[]]]; cbn; lia. }
  cbn zeta. split; [|vm_compute; auto 10]. apply (suppliesb_ok gl2 (fvals gl2) _ [0; 0]); [|vm_compute; reflexivity]. intros j _. do 2 (destruct j as [|j]; [reflexivity|]). destruct j; reflexivity.
Qed.

(** C98: the parser gives back the fields from which the deparser made the frames, for the same structure and width and any stalls on both sides *)
Theorem C98_round_trip_partial : forall W fields vals, proper W fields -> (forall j n, is_field fields j -> length (vals j n) = width fields j) ->
  forall di, tidy W fields \/ Forall (together fields) di -> let td := trace (d_step W fields) (d_init W fields) di in supplies fields vals (fun _ => 0) td ->
  forall pi r0 src lst, let tp := trace (p_step W fields false false) (p_init fields r0) pi in
  (forall k, length (src k) = W) -> (forall k, k < length (sent td) -> src k = nth k (sent td) []) -> feeds src lst 0 tp -> eaten tp < length (sent td) ->
  forall j, is_field fields j -> taken j tp = map (vals j) (seq 0 (length (taken j tp))).
Proof. exact t_round. Qed.
Example C98_round_trip_partial_nonvacuous : glist = sent (trace (d_step 8 gl1) (d_init 8 gl1) grun1) /\ let tp := trace (p_step 8 gl1 false false) (p_init gl1 r00) hrun1 in
  (forall k, length (gsrc k) = 8) /\ (forall k, k < length glist -> gsrc k = nth k glist []) /\ feeds gsrc fl_lst0 0 tp /\ eaten tp < length glist /\
  map (fun j => map tonat (taken j tp)) [0; 1; 3; 4] = [[3; 14; 25]; [10; 2]; [24; 122]; [31; 158]].
Proof.
  split; [reflexivity|]. cbn zeta. split; [exact gsrc_len|]. split; [exact gsrc_ok|]. split; [apply feedsb_ok; vm_compute; reflexivity|]. split; [apply Nat.ltb_lt; vm_compute; reflexivity|]. vm_compute. reflexivity.
Qed.

Print Assumptions C97_frames_partial.
Print Assumptions C97_taken_partial.
Print Assumptions C97_valid.
Print Assumptions C97_last.
Print Assumptions C97_strb.
Print Assumptions C97_lost_value_refuted.
Print Assumptions C98_round_trip_partial.
