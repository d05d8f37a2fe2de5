(** Proofs about the converters between Axi4Stream and LocalLink. *)
From Verif Require Import Base BaseFacts LlinkModel LlinkSpec.

Lemma same_eq : forall a b, same a b = true <-> a = b.
Proof.
  induction a as [|x a IH]; intros [|y b]; cbn; split; intros H; try discriminate; auto.
  - apply andb_prop in H as [H1 H2]. apply Bool.eqb_prop in H1. apply IH in H2. congruence.
  - injection H as -> ->. rewrite Bool.eqb_reflx. apply IH. reflexivity.
Qed.
Lemma mask_len B n : length (mask B n) = B.
Proof. unfold mask. rewrite map_length, seq_length. reflexivity. Qed.
Lemma mask_nth B n k : k < B -> nth k (mask B n) false = (k <? n).
Proof.
  intros H. unfold mask. rewrite (nth_indep _ false ((fun k => k <? n) 0)) by (rewrite map_length, seq_length; exact H).
  rewrite (map_nth (fun k => k <? n)), seq_nth by exact H. reflexivity.
Qed.
Lemma bytes_mask B n s : bytes_from_0 B n s -> s = mask B n.
Proof.
  intros [L H]. apply (nth_ext _ _ false false); [rewrite L, mask_len; reflexivity|]. intros k Hk. rewrite L in Hk. rewrite H, mask_nth by exact Hk. reflexivity.
Qed.
Lemma mask_inj B n m : 1 <= n <= B -> 1 <= m <= B -> mask B n = mask B m -> n = m.
Proof.
  intros Hn Hm E. destruct (Nat.lt_trichotomy n m) as [L|[L|L]]; [|exact L|].
  - pose proof (f_equal (fun l => nth n l false) E) as E1. cbn beta in E1. rewrite !mask_nth in E1 by lia. lia.
  - pose proof (f_equal (fun l => nth m l false) E) as E1. cbn beta in E1. rewrite !mask_nth in E1 by lia. lia.
Qed.
Lemma find_first {A} (f : A -> bool) l x : In x l -> f x = true -> (forall y, In y l -> f y = true -> y = x) -> find f l = Some x.
Proof.
  intros I F U. destruct (find f l) as [y|] eqn:E.
  - apply find_some in E as [E1 E2]. rewrite (U y E1 E2). reflexivity.
  - rewrite (find_none _ _ E x I) in F. discriminate.
Qed.
Lemma rem_mask B n : 1 <= n <= B -> rem_of B (mask B n) = Some (n - 1).
Proof.
  intros H. unfold rem_of. apply find_first.
  - apply in_seq. lia.
  - apply same_eq. f_equal. lia.
  - intros y I E. apply in_seq in I. apply same_eq in E. apply mask_inj in E; lia.
Qed.
Lemma rem_full k : 1 <= k -> 2 ^ REM_BITS (2 ^ k) - 1 = 2 ^ k - 1.
Proof.
  intros H. unfold REM_BITS, log2ceil. destruct (Nat.leb_spec (2 ^ k) 1) as [L|L].
  - exfalso. pose proof (Nat.pow_le_mono_r 2 1 k ltac:(lia) H). cbn in H0. lia.
  - rewrite Nat.log2_up_pow2 by lia. reflexivity.
Qed.

Section P.
  Context {D : Type} (k : nat) (Hk : 1 <= k).
  Local Notation B := (2 ^ k).

  Lemma back_axi sof (w : axi_word D) : word_ok B w -> to_axi B (to_ll B sof w) = completed sof w.
  Proof.
    intros (s & n & E & Hs & Hn & Hf). unfold to_axi, to_ll, completed. cbn. rewrite E. rewrite (bytes_mask _ _ _ Hs) in *.
    assert (R : match (if a_last w || a_eop w then rem_of B (mask B n) else Some (2 ^ REM_BITS B - 1)) with Some r => strb_of B r | None => None end = Some (mask B n)).
    { rewrite (rem_mask B n Hn), rem_full by exact Hk. unfold strb_of. destruct (a_last w || a_eop w) eqn:O.
      - destruct (Nat.ltb_spec (n - 1) B); [|lia]. do 2 f_equal; lia.
      - apply orb_false_iff in O as [O1 O2]. rewrite (Hf O1 O2). destruct (Nat.ltb_spec (B - 1) B); [|lia]. do 2 f_equal; lia. }
    rewrite R. destruct (a_last w), (a_eop w), (a_sop w), sof; reflexivity.
  Qed.
  Lemma back_ll sof (w : ll_word D) : ll_ok B w -> l_sof_n w = negb sof -> to_ll B sof (to_axi B w) = w.
  Proof.
    intros ((r & E & L & F) & H1 & H2) S. unfold to_axi, to_ll. cbn. rewrite E. unfold strb_of. destruct (Nat.ltb_spec r B); [|lia].
    rewrite rem_mask, rem_full by lia. destruct w as [d rm so eo sp ep]. cbn in *. subst so rm.
    assert (R : (if negb eo || negb ep then Some (r + 1 - 1) else Some (B - 1)) = Some r).
    { destruct eo, ep; cbn; try (f_equal; lia); f_equal; symmetry; apply F; reflexivity. }
    rewrite R. destruct sof, eo, sp, ep; cbn in *; try reflexivity; try (specialize (H1 eq_refl); discriminate); specialize (H2 eq_refl); discriminate.
  Qed.

  Lemma trip is : forall sof, let t := trace (@axi_ll_axi D B) sof is in
    Forall (word_ok B) (sent t) ->
    Forall (fun c => fst (fst (snd c)) = fst (fst (fst c)) /\ snd (snd c) = snd (fst c)) t /\
    received t = map (fun x => completed (fst x) (snd x)) (combine (firsts sof (map a_last (sent t))) (sent t)).
  Proof.
    induction is as [|[[v w] r] is IH]; intros sof t; subst t; [intros _; split; [constructor|reflexivity]|].
    rewrite trace_cons. unfold sent, received. cbn [filter axi_ll_axi a2l_step l2a fst snd]. rewrite !negb_involutive. fold (@sent D) (@received D).
    specialize (IH (if v && r then a_last w else sof)). cbv zeta in IH. unfold sent, received in IH.
    destruct (v && r) eqn:VR; cbn [map fst snd combine firsts].
    - intros F. pose proof (Forall_inv F) as Fw. apply Forall_inv_tail in F. destruct (IH F) as [I1 I2]. split.
      + constructor; [split; reflexivity|exact I1].
      + rewrite I2. apply (f_equal2 (@cons _)); [|reflexivity]. apply back_axi, Fw.
    - intros F. destruct (IH F) as [I1 I2]. split; [constructor; [split; reflexivity|exact I1]|exact I2].
  Qed.
  Lemma ll_trip is : forall sof, let t := trace (@ll_axi_ll D B) sof is in
    Forall (ll_ok B) (ll_sent t) -> map (fun w => negb (l_sof_n w)) (ll_sent t) = firsts sof (map (fun w => negb (l_eof_n w)) (ll_sent t)) ->
    Forall (fun c => fst (fst (snd c)) = fst (fst (fst c)) /\ snd (snd c) = snd (fst c)) t /\ ll_received t = ll_sent t.
  Proof.
    induction is as [|[[v w] r] is IH]; intros sof t; subst t; [intros _; split; [constructor|reflexivity]|].
    rewrite trace_cons. unfold ll_sent, ll_received. cbn [filter ll_axi_ll a2l_step l2a fst snd]. rewrite !negb_involutive.
    match goal with |- context [ll_taken (v, w, r, ?a)] => change (ll_taken (v, w, r, a)) with (negb v && negb r) end.
    specialize (IH (if negb v && negb r then a_last (to_axi B w) else sof)). cbv zeta in IH. unfold ll_sent, ll_received in IH.
    destruct (negb v && negb r) eqn:VR; cbn [map fst snd firsts].
    - intros F S. pose proof (Forall_inv F) as Fw. apply Forall_inv_tail in F. pose proof (f_equal (hd true) S) as S1. pose proof (f_equal (@tl _) S) as S2. cbn [hd tl] in S1, S2.
      destruct (IH F S2) as [I1 I2]. split.
      + constructor; [split; reflexivity|exact I1].
      + rewrite I2. apply (f_equal2 (@cons _)); [|reflexivity]. apply back_ll; [exact Fw|]. rewrite <- S1, negb_involutive. reflexivity.
    - intros F S. destruct (IH F S) as [I1 I2]. split; [constructor; [split; reflexivity|exact I1]|exact I2].
  Qed.
End P.

Lemma axi_trip {D} k is : 1 <= k -> let t := trace (@axi_ll_axi D (2 ^ k)) a2l_init is in
  Forall (word_ok (2 ^ k)) (sent t) ->
  Forall (fun c => fst (fst (snd c)) = fst (fst (fst c)) /\ snd (snd c) = snd (fst c)) t /\ received t = complete (sent t).
Proof. intros Hk. exact (trip k Hk is true). Qed.
Lemma ll_trip0 {D} k is : 1 <= k -> let t := trace (@ll_axi_ll D (2 ^ k)) a2l_init is in
  ll_frames (2 ^ k) (ll_sent t) ->
  Forall (fun c => fst (fst (snd c)) = fst (fst (fst c)) /\ snd (snd c) = snd (fst c)) t /\ ll_received t = ll_sent t.
Proof. intros Hk t [F S]. exact (ll_trip k Hk is true F S). Qed.

(** frame marks of Axi4SToLocalLink, for every width and strb *)
Lemma marks {D} B is : forall sof, let t := trace (@a2l_step D B) sof is in
  let ws := map (fun c => (snd (fst (fst c)), snd (fst (snd c)))) (filter (fun c => fst (fst (fst c)) && snd (snd c)) t) in
  map (fun x => negb (l_sof_n (snd x))) ws = firsts sof (map (fun x => a_last (fst x)) ws) /\
  Forall (fun x => l_data (snd x) = a_data (fst x) /\ l_eof_n (snd x) = negb (a_last (fst x)) /\
                   (l_sop_n (snd x) = negb (a_sop (fst x) || negb (l_sof_n (snd x)))) /\ l_eop_n (snd x) = negb (a_eop (fst x) || a_last (fst x))) ws.
Proof.
  induction is as [|[[v w] r] is IH]; intros sof t; subst t; [split; [reflexivity|constructor]|].
  rewrite trace_cons. cbn [filter a2l_step fst snd]. specialize (IH (if v && negb r then a_last w else sof)). cbv zeta in IH.
  destruct (v && negb r); cbn [map fst snd firsts]; [|exact IH]. destruct IH as [I1 I2]. split.
  - cbn [to_ll l_sof_n]. rewrite negb_involutive. f_equal. exact I1.
  - constructor; [|exact I2]. cbn. destruct sof, (a_sop w), (a_last w), (a_eop w); auto.
Qed.
Lemma marks0 {D} B is : let t := trace (@a2l_step D B) a2l_init is in
  let ws := map (fun c => (snd (fst (fst c)), snd (fst (snd c)))) (filter (fun c => fst (fst (fst c)) && snd (snd c)) t) in
  map (fun x => negb (l_sof_n (snd x))) ws = firsts true (map (fun x => a_last (fst x)) ws) /\
  Forall (fun x => l_data (snd x) = a_data (fst x) /\ l_eof_n (snd x) = negb (a_last (fst x)) /\
                   (l_sop_n (snd x) = negb (a_sop (fst x) || negb (l_sof_n (snd x)))) /\ l_eop_n (snd x) = negb (a_eop (fst x) || a_last (fst x))) ws.
Proof. apply marks. Qed.
