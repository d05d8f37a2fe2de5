(** C114, C115: converters between Axi4Stream and LocalLink. *)
From Verif Require Import Base LlinkModel LlinkSpec LlinkProofs.

(** widths of 2^k bytes, k >= 1: valid and ready go through, each word comes back with its data, strb and last; start and end
    of packet are added at the borders of frames *)
Theorem C114_round_trip_partial : forall D k is, 1 <= k -> let t := trace (@axi_ll_axi D (2 ^ k)) a2l_init is in
  Forall (word_ok (2 ^ k)) (sent t) ->
  Forall (fun c => fst (fst (snd c)) = fst (fst (fst c)) /\ snd (snd c) = snd (fst c)) t /\ received t = complete (sent t).
Proof. exact @axi_trip. Qed.
Print Assumptions C114_round_trip_partial.
Example C114_round_trip_witness :
  let w1 := mk_a 5 (Some [true; true]) false false false in let w2 := mk_a 6 (Some [true; false]) true false false in
  let t := trace (axi_ll_axi 2) a2l_init [(true, w1, false); (true, w1, true); (false, w2, true); (true, w2, true)] in
  Forall (word_ok (2 ^ 1)) (sent t) /\ received t = [mk_a 5 (Some [true; true]) false true false; mk_a 6 (Some [true; false]) true false true].
Proof.
  split; [|reflexivity]. constructor; [|constructor; [|constructor]].
  - exists [true; true], 2. split; [reflexivity|]. split; [split; [reflexivity|]; intros [|[|k]] H; [reflexivity|reflexivity|cbn in H; lia]|]. cbn. auto.
  - exists [true; false], 1. split; [reflexivity|]. split; [split; [reflexivity|]; intros [|[|k]] H; [reflexivity|reflexivity|cbn in H; lia]|]. split; [cbn; lia|discriminate].
Qed.
(** for 8 bit and 24 bit words the strb of words inside of a frame is lost *)
Theorem C114_width_refuted : forall B, B = 1 \/ B = 3 -> exists is, let t := trace (@axi_ll_axi unit B) a2l_init is in
  Forall (word_ok B) (sent t) /\ map a_strb (received t) = [None].
Proof.
  intros B [-> | ->].
  - exists [(true, mk_a tt (Some [true]) false false false, true)]. split; [|reflexivity]. constructor; [|constructor].
    exists [true], 1. split; [reflexivity|]. split; [split; [reflexivity|]; intros [|k] H; [reflexivity|lia]|]. auto.
  - exists [(true, mk_a tt (Some [true; true; true]) false false false, true)]. split; [|reflexivity]. constructor; [|constructor].
    exists [true; true; true], 3. split; [reflexivity|]. split; [split; [reflexivity|]; intros [|[|[|k]]] H; try reflexivity; lia|]. auto.
Qed.
Print Assumptions C114_width_refuted.

(** LocalLink frames come back unchanged through Axi4Stream *)
Theorem C115_back_partial : forall D k is, 1 <= k -> let t := trace (@ll_axi_ll D (2 ^ k)) a2l_init is in
  ll_frames (2 ^ k) (ll_sent t) ->
  Forall (fun c => fst (fst (snd c)) = fst (fst (fst c)) /\ snd (snd c) = snd (fst c)) t /\ ll_received t = ll_sent t.
Proof. exact @ll_trip0. Qed.
Print Assumptions C115_back_partial.
Example C115_back_witness :
  let w1 := mk_l 5 (Some 1) false true false true in let w2 := mk_l 6 (Some 0) true false true false in
  let t := trace (ll_axi_ll 2) a2l_init [(false, w1, true); (false, w1, false); (true, w2, false); (false, w2, false); (false, w1, false)] in
  ll_frames (2 ^ 1) (ll_sent t) /\ ll_sent t = [w1; w2; w1].
Proof.
  split; [split; [|reflexivity]|reflexivity].
  repeat (constructor; [split; [eexists; split; [reflexivity|]; split; [cbn; lia|cbn; intros; (reflexivity || discriminate)]|cbn; auto]|]). constructor.
Qed.
(** for every width: sof is on the first word of each frame and on no other one, eof on the last one, packets are completed *)
Theorem C115_marks : forall D B is, let t := trace (@a2l_step D B) a2l_init is in
  let ws := map (fun c => (snd (fst (fst c)), snd (fst (snd c)))) (filter (fun c => fst (fst (fst c)) && snd (snd c)) t) in
  map (fun x => negb (l_sof_n (snd x))) ws = firsts true (map (fun x => a_last (fst x)) ws) /\
  Forall (fun x => l_data (snd x) = a_data (fst x) /\ l_eof_n (snd x) = negb (a_last (fst x)) /\
                   (l_sop_n (snd x) = negb (a_sop (fst x) || negb (l_sof_n (snd x)))) /\ l_eop_n (snd x) = negb (a_eop (fst x) || a_last (fst x))) ws.
Proof. exact @marks0. Qed.
Print Assumptions C115_marks.
Example C115_marks_witness :
  let w l := mk_a tt (Some [true]) l false false in
  let t := trace (a2l_step 1) a2l_init [(true, w false, false); (true, w true, true); (true, w true, false); (true, w true, false)] in
  map (fun c => l_sof_n (snd (fst (snd c)))) t = [false; true; true; false].
Proof. reflexivity. Qed.
(** in 24 bit words rem inside of a frame is not the number of a byte *)
Theorem C115_rem_refuted : exists w : axi_word unit, word_ok 3 w /\ l_rem (to_ll 3 true w) = Some 3.
Proof.
  exists (mk_a tt (Some [true; true; true]) false false false). split; [|reflexivity].
  exists [true; true; true], 3. split; [reflexivity|]. split; [split; [reflexivity|]; intros [|[|[|k]]] H; try reflexivity; lia|]. auto.
Qed.
Print Assumptions C115_rem_refuted.
