From Verif Require Import Base BaseFacts AseqModel AseqSpec.

Fixpoint chk (VW DW V i : nat) (f : list nat) : bool :=
  match f with [] => true | d :: f' => state_update VW DW V i d && chk VW DW V (S i) f' end.

Lemma chk_snoc VW DW V f : forall i d, chk VW DW V i (f ++ [d]) = chk VW DW V i f && state_update VW DW V (i + length f) d.
Proof.
  induction f as [|a f IH]; intros i d; simpl.
  - rewrite Nat.add_0_r, andb_true_r. reflexivity.
  - rewrite IH, <- andb_assoc. replace (S i + length f) with (i + S (length f)) by lia. reflexivity.
Qed.

Lemma slice_shift x a h l : slice x (a + h) (a + l) = slice (x / 2 ^ a) h l.
Proof.
  unfold slice. replace (a + h - (a + l)) with (h - l) by lia.
  rewrite Nat.pow_add_r, Nat.div_div by (apply Nat.pow_nonzero; lia). reflexivity.
Qed.

Lemma update_shift VW DW V i d : DW <= VW -> state_update VW DW V (S i) d = state_update (VW - DW) DW (V / 2 ^ DW) i d.
Proof.
  intros H. unfold state_update.
  replace (val_low DW (S i)) with (DW + val_low DW i) by (unfold val_low; lia).
  replace (val_high VW DW (S i)) with (DW + val_high (VW - DW) DW i) by (unfold val_high, val_low; lia).
  rewrite slice_shift. replace (DW + val_high (VW - DW) DW i - (DW + val_low DW i)) with (val_high (VW - DW) DW i - val_low DW i) by lia.
  reflexivity.
Qed.

Lemma chk_shift VW DW V f : DW <= VW -> forall i, chk VW DW V (S i) f = chk (VW - DW) DW (V / 2 ^ DW) i f.
Proof.
  intros H. induction f as [|d f IH]; intros i; cbn [chk]; [reflexivity|].
  rewrite IH, update_shift by exact H. reflexivity.
Qed.

Lemma slice0 x h : slice x h 0 = x mod 2 ^ h.
Proof. unfold slice. rewrite Nat.sub_0_r, Nat.pow_0_r, Nat.div_1_r. reflexivity. Qed.

Lemma mod_split d F a b V : d < 2 ^ a -> ((d + 2 ^ a * F) mod 2 ^ (a + b) =? V) = (d =? V mod 2 ^ a) && (F mod 2 ^ b =? V / 2 ^ a).
Proof.
  intros Hd. pose proof (pow2_pos a) as Ha. pose proof (pow2_pos b) as Hb.
  assert (E : (d + 2 ^ a * F) mod 2 ^ (a + b) = d + 2 ^ a * (F mod 2 ^ b)).
  { rewrite Nat.pow_add_r. rewrite Nat.mod_mul_r by lia.
    replace (d + 2 ^ a * F) with (d + F * 2 ^ a) by lia.
    rewrite Nat.mod_add, Nat.div_add by lia. rewrite Nat.mod_small, Nat.div_small by lia. reflexivity. }
  rewrite E. set (m := F mod 2 ^ b). clearbody m. clear E.
  pose proof (Nat.div_mod V (2 ^ a) ltac:(lia)) as HV.
  pose proof (Nat.mod_upper_bound V (2 ^ a) ltac:(lia)) as HB.
  destruct (d =? V mod 2 ^ a) eqn:E1; destruct (m =? V / 2 ^ a) eqn:E2; simpl.
  - apply Nat.eqb_eq in E1, E2. apply Nat.eqb_eq. rewrite HV, E1, E2. nia.
  - apply Nat.eqb_neq. apply Nat.eqb_neq in E2. intro X. apply E2. rewrite <- X.
    rewrite (Nat.mul_comm (2 ^ a)), Nat.div_add, Nat.div_small by lia. lia.
  - apply Nat.eqb_neq. apply Nat.eqb_neq in E1. intro X. apply E1. rewrite <- X.
    rewrite (Nat.mul_comm (2 ^ a)), Nat.mod_add, Nat.mod_small by lia. lia.
  - apply Nat.eqb_neq. apply Nat.eqb_neq in E1. intro X. apply E1. rewrite <- X.
    rewrite (Nat.mul_comm (2 ^ a)), Nat.mod_add, Nat.mod_small by lia. lia.
Qed.

(** number of words against the width *)
Lemma cnt_bounds VW DW : 0 < DW -> 0 < VW -> (word_cnt VW DW - 1) * DW < VW <= word_cnt VW DW * DW /\ 0 < word_cnt VW DW.
Proof.
  intros H1 H2. unfold word_cnt.
  pose proof (Nat.div_mod (VW + DW - 1) DW ltac:(lia)) as E.
  pose proof (Nat.mod_upper_bound (VW + DW - 1) DW ltac:(lia)) as B.
  assert (0 < (VW + DW - 1) / DW) by (apply Nat.div_str_pos; lia).
  nia.
Qed.

Lemma carries_chk DW : 0 < DW -> forall f VW V, (length f - 1) * DW < VW <= length f * DW -> V < 2 ^ VW ->
  Forall (fun d => d < 2 ^ DW) f -> carries VW DW V f = chk VW DW V 0 f.
Proof.
  intros HD. induction f as [|d f IH]; intros VW V HL HV HF; [cbn in HL; lia|].
  unfold carries. cbn [frame_num chk].
  pose proof (Forall_inv HF) as Hd. apply Forall_inv_tail in HF.
  destruct f as [|e f].
  - cbn [length chk frame_num] in *. rewrite andb_true_r, Nat.mul_0_r, Nat.add_0_r.
    unfold state_update, val_high, val_low. rewrite Nat.mul_0_l, Nat.add_0_l, Nat.sub_0_r, !slice0.
    replace (Nat.min DW VW) with VW by lia. rewrite (Nat.mod_small V) by lia. reflexivity.
  - assert (HW : DW < VW) by (cbn [length] in HL; nia).
    rewrite chk_shift by lia. rewrite <- IH; [|cbn [length] in *; nia| |exact HF].
    + replace VW with (DW + (VW - DW)) at 1 by lia. rewrite mod_split by exact Hd. unfold carries. f_equal.
      unfold state_update, val_high, val_low. rewrite Nat.mul_0_l, Nat.add_0_l, Nat.sub_0_r, !slice0.
      replace (Nat.min DW VW) with DW by lia. rewrite (Nat.mod_small d) by exact Hd. reflexivity.
    + apply Nat.div_lt_upper_bound; [pose proof (pow2_pos DW); lia|]. rewrite <- Nat.pow_add_r. replace (DW + (VW - DW)) with VW by lia. exact HV.
Qed.

Section Multi.
  Variables VW DW V : nat.
  Notation step := (aq_step VW DW V).
  Notation wc := (word_cnt VW DW).

  (** one result for each frame in any schedule *)
  Lemma results_count is : forall s cur, length (results (trace step s is)) = length (frames cur (taken (trace step s is))).
  Proof.
    induction is as [|i is IH]; intros s cur; [reflexivity|].
    rewrite trace_cons. unfold results, taken. cbn [flat_map fst snd].
    cbn [aq_step snd fst aq_o qo_vld qo_ready qo_data]. unfold aq_lastw.
    destruct i as [v d l r]. cbn [qi_valid qi_data qi_last qi_rd].
    destruct v, l, r; cbn [andb orb negb app frames length]; first [rewrite <- (IH _ []) | rewrite <- (IH _ (cur ++ [d])) | rewrite <- (IH _ cur)]; reflexivity.
  Qed.

  Definition inv (s : aq_st) (cur : list nat) : Prop :=
    length cur < wc -> q_state s = chk VW DW V 0 cur /\ (length cur < wc - 1 -> q_index s = length cur).

  Lemma index_fits k : k < wc - 1 -> k < 2 ^ index_w VW DW.
  Proof. intros H. unfold index_w. pose proof (log2ceil_ge (wc - 1)). lia. Qed.

  Hypothesis HD : 0 < DW.
  Hypothesis HVW : DW < VW.
  Hypothesis HV : V < 2 ^ VW.

  Lemma wc_pos : 0 < wc.
  Proof. apply cnt_bounds; lia. Qed.

  Lemma inv_next s cur d : inv s cur -> inv (mk_aqs (winc (index_w VW DW) (q_index s)) (aq_case VW DW V s d)) (cur ++ [d]).
  Proof.
    unfold inv. rewrite app_length. cbn [length q_state q_index]. intros H Hl.
    destruct (H ltac:(lia)) as [H1 H2]. specialize (H2 ltac:(lia)). split.
    - rewrite chk_snoc, Nat.add_0_l, <- H1. unfold aq_case. rewrite H2.
      destruct (length cur <? wc - 1) eqn:E; [reflexivity|]. apply Nat.ltb_ge in E. lia.
    - intros Hm. rewrite H2. rewrite winc_small; [reflexivity|]. pose proof (index_fits _ Hm). lia.
  Qed.

  Lemma results_equal is : forall s cur, inv s cur -> ready_inside is -> in_range DW is -> Forall (fun d => d < 2 ^ DW) cur ->
    Forall (fun f => length f = wc) (frames cur (taken (trace step s is))) ->
    results (trace step s is) = map (carries VW DW V) (frames cur (taken (trace step s is))).
  Proof.
    induction is as [|i is IH]; intros s cur HI HR HG HC HF; [reflexivity|].
    pose proof (Forall_inv HR) as R. apply Forall_inv_tail in HR.
    pose proof (Forall_inv HG) as G. apply Forall_inv_tail in HG.
    rewrite trace_cons in *. unfold results, taken in *. cbn [flat_map fst snd] in *.
    cbn [aq_step snd fst aq_o qo_vld qo_ready qo_data] in *. unfold aq_lastw, aq_next, aq_ack in *.
    destruct i as [v d l r]. cbn [qi_valid qi_data qi_last qi_rd] in *.
    assert (I0 : inv aq_init []).
    { unfold inv. cbn. intros _. split; [reflexivity|]. intros _. reflexivity. }
    destruct v, l, r; cbn [andb orb negb app frames map] in *.
    - pose proof (Forall_inv HF) as F. apply Forall_inv_tail in HF. f_equal.
      + cbn beta in F. rewrite app_length in F. cbn [length] in F. destruct (HI ltac:(lia)) as [Hs _].
        rewrite Hs, carries_chk; try lia.
        * rewrite chk_snoc, Nat.add_0_l. replace (wc - 1) with (length cur) by lia. reflexivity.
        * rewrite app_length. cbn [length]. rewrite F. apply cnt_bounds; lia.
        * apply Forall_app. split; [exact HC|]. constructor; [exact G|constructor].
      + apply IH; auto.
    - apply IH; auto.
    - apply IH; auto.
      + apply inv_next. exact HI.
      + apply Forall_app. split; [exact HC|]. constructor; [exact G|constructor].
    - specialize (R eq_refl eq_refl). discriminate R.
    - apply IH; auto.
    - apply IH; auto.
    - apply IH; auto.
    - apply IH; auto.
  Qed.

  Lemma c146_multi is : ready_inside is -> in_range DW is ->
    Forall (fun f => length f = wc) (frames [] (taken (trace step aq_init is))) ->
    results (trace step aq_init is) = map (carries VW DW V) (frames [] (taken (trace step aq_init is))).
  Proof.
    intros H1 H2 H3. apply results_equal; auto. unfold inv. cbn. intros _. split; [reflexivity|]. intros _. reflexivity.
  Qed.
End Multi.

Lemma c146_single VW DW V is : 0 < VW -> VW <= DW ->
  results (trace (aq1_step VW V) tt is) = map (fun w => carries VW DW V [fst w]) (taken (trace (aq1_step VW V) tt is)).
Proof.
  intros H1 H2. induction is as [|i is IH]; [reflexivity|].
  rewrite trace_cons. unfold results, taken in *. cbn [flat_map fst snd aq1_step qo_vld qo_ready qo_data] in *.
  destruct i as [v d l r]. cbn [qi_valid qi_data qi_last qi_rd].
  destruct v, r; cbn [andb app map fst]; try exact IH.
  rewrite IH. f_equal. unfold carries. cbn [frame_num]. rewrite slice0, Nat.mul_0_r, Nat.add_0_r. reflexivity.
Qed.

(** the taken words and given results do not depend on pauses: a frame with pauses *)
Definition q_ok (d : nat) (l : bool) := mk_aqi true d l true.
Definition q_stall (d : nat) (l : bool) := mk_aqi true d l false.
Definition q_pause := mk_aqi false 0 false false.
