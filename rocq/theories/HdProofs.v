From Verif Require Import Mi32IcProofs Base BaseFacts HdModel HdSpec.

Lemma held_prefix t : forall c, held (t ++ [c]) -> held t.
Proof.
  induction t as [|a t IH]; intros c H; [exact I|]. destruct t as [|b t]; [exact I|]. cbn [app held] in *. destruct H as [H1 H2]. split; [exact H1|].
  apply (IH c). exact H2.
Qed.
Lemma held_last t : forall c c', held (t ++ [c; c']) -> hi_vld (fst c) = true -> ho_rd (snd c) = false -> hi_vld (fst c') = true /\ hi_data (fst c') = hi_data (fst c).
Proof.
  induction t as [|a t IH]; intros c c' H; [exact (proj1 H)|]. apply IH. cbn [app] in H. destruct (t ++ [c; c']) eqn:E; [destruct t; discriminate|].
  cbn [held] in H. apply H.
Qed.
Lemma ff_app ROWS a : forall row b, ff_first ROWS row (a ++ b) -> ff_first ROWS row a /\ ff_first ROWS (fold_left (char_row ROWS) a row) b.
Proof. induction a as [|c a IH]; intros row b H; cbn [app ff_first fold_left] in *; [auto|]. destruct H as [H1 H2]. destruct (IH _ _ H2). auto. Qed.
Lemma text_cmds_app ROWS COLS a : forall row b, text_cmds ROWS COLS row (a ++ b) = text_cmds ROWS COLS row a ++ text_cmds ROWS COLS (fold_left (char_row ROWS) a row) b.
Proof. induction a as [|c a IH]; intros row b; cbn [app text_cmds fold_left]; [reflexivity|]. rewrite IH, app_assoc. reflexivity. Qed.
Lemma text_row_snoc ROWS a c : text_row ROWS (a ++ [c]) = char_row ROWS (text_row ROWS a) c.
Proof. unfold text_row. rewrite fold_left_app. reflexivity. Qed.
Lemma repeat_S_snoc {A} (x : A) n : repeat x (S n) = repeat x n ++ [x].
Proof. apply repeat_cons. Qed.

Section P.
  Variables (ROWS COLS : nat).
  Hypothesis HR : 2 ^ row_w ROWS = ROWS.
  Hypothesis HC : 1 <= COLS <= 2 ^ col_w COLS.
  Notation step := (hd_step ROWS COLS).
  Notation trow t := (text_row ROWS (taken t)).

  Lemma rows_pos : 1 <= ROWS.
  Proof. rewrite <- HR. pose proof (Nat.pow_nonzero 2 (row_w ROWS) ltac:(lia)). lia. Qed.
  Lemma next_lt r : r < ROWS -> next_row ROWS r < ROWS.
  Proof. unfold next_row. intros H. destruct (Nat.eqb_spec r (ROWS - 1)); lia. Qed.
  Lemma winc_row r : r < ROWS -> winc (row_w ROWS) r = next_row ROWS r.
  Proof.
    intros H. unfold winc, wrap, next_row. rewrite HR. destruct (Nat.eqb_spec r (ROWS - 1)) as [->|Hn].
    - replace (ROWS - 1 + 1) with ROWS by lia. apply Nat.mod_same. lia.
    - apply Nat.mod_small. lia.
  Qed.
  Lemma offset_ok r : r < ROWS -> line_offset ROWS COLS r = Some (ddram_addr_set (r * COLS)).
  Proof.
    intros H. unfold line_offset. rewrite nth_error_map. rewrite (nth_error_nth' (seq 0 ROWS) 0) by (rewrite seq_length; exact H).
    rewrite seq_nth by exact H. reflexivity.
  Qed.
  Lemma trow_lt l : text_row ROWS l < ROWS.
  Proof.
    induction l as [|c l IH] using rev_ind; [exact rows_pos|]. rewrite text_row_snoc. unfold char_row. destruct (c =? NL); [apply next_lt; exact IH|].
    destruct (c =? FF); [exact rows_pos|exact IH].
  Qed.

  (** the last cycle offered a newline which was not taken *)
  Definition offers_nl (t : list (hd_in * hd_out)) : Prop :=
    exists t' c, t = t' ++ [c] /\ hi_vld (fst c) = true /\ hi_data (fst c) = NL /\ ho_rd (snd c) = false.
  Definition part_of (s : hd_st) (r : nat) : list hd_cmd :=
    match h_fsm s with
    | RowIncr | JmpNext => []
    | CleanLine => [jump COLS (next_row ROWS r)] ++ repeat (dat_cmd SPACE) (h_col s)
    | JmpStart => [jump COLS (next_row ROWS r)] ++ repeat (dat_cmd SPACE) COLS
    end.
  Definition Inv (s : hd_st) (t : list (hd_in * hd_out)) : Prop :=
    sent t = map Some (text_cmds ROWS COLS 0 (taken t) ++ part_of s (trow t)) /\
    match h_fsm s with
    | RowIncr => h_row s = trow t
    | JmpNext | JmpStart => h_row s = next_row ROWS (trow t) /\ offers_nl t
    | CleanLine => h_row s = next_row ROWS (trow t) /\ offers_nl t /\ h_col s < COLS /\ h_lvld s = true /\ h_lrd s = false
    end.

  Lemma sent_snoc t c : sent (t ++ [c]) = sent t ++ (if ho_vld (snd c) && hi_rd (fst c) then [ho_cmd (snd c)] else []).
  Proof. unfold sent. rewrite flat_map_app. cbn [flat_map]. rewrite app_nil_r. reflexivity. Qed.
  Lemma taken_snoc t c : taken (t ++ [c]) = taken t ++ (if hi_vld (fst c) && ho_rd (snd c) then [hi_data (fst c)] else []).
  Proof. unfold taken. rewrite flat_map_app. cbn [flat_map]. rewrite app_nil_r. reflexivity. Qed.

  Lemma Inv_step s t i : Inv s t -> let t' := t ++ [(i, hd_o ROWS COLS s i)] in held t' -> ff_first ROWS 0 (taken t') -> Inv (fst (step s i)) t'.
  Proof.
    intros [HS HI] t' Hh Hff. unfold t' in *. clear t'.
    assert (Hnl : h_fsm s <> RowIncr -> is_nl i = true).
    { intros Hf. assert (offers_nl t) as (t0 & c & -> & H1 & H2 & H3) by (destruct (h_fsm s); [congruence|apply HI|apply HI|apply HI]).
      rewrite <- app_assoc in Hh. cbn [app] in Hh. destruct (held_last _ _ _ Hh H1 H3) as [E1 E2]. cbn [fst] in E1, E2.
      unfold is_nl. rewrite E1, E2, H2. reflexivity. }
    assert (Hr : trow t < ROWS) by apply trow_lt.
    set (r := trow t) in *.
    destruct (h_fsm s) eqn:Ef.
    - (* no newline in progress *)
      destruct (is_nl i) eqn:En.
      + (* newline begins *)
        assert (Eo : hd_o ROWS COLS s i = mk_hdo false false None) by (unfold hd_o; rewrite En, Ef; reflexivity).
        assert (Et : taken (t ++ [(i, hd_o ROWS COLS s i)]) = taken t) by (rewrite taken_snoc, Eo; cbn [fst snd ho_rd]; rewrite andb_false_r, app_nil_r; reflexivity).
        unfold Inv. rewrite Et. fold r. cbn [hd_step fst h_fsm h_row]. unfold hd_fsm_next. rewrite Ef, En. cbn [h_fsm h_row]. split.
        * rewrite sent_snoc, Eo. cbn [snd ho_vld andb]. rewrite app_nil_r, HS. unfold part_of. cbn [h_fsm]. rewrite Ef. reflexivity.
        * split; [unfold hd_row_next; rewrite En, Ef, HI; apply winc_row; exact Hr|].
          exists t, (i, hd_o ROWS COLS s i). unfold is_nl in En. apply andb_prop in En. destruct En as [E1 E2]. rewrite Eo. cbn [fst snd ho_rd].
          split; [reflexivity|]. split; [exact E1|]. split; [lia|reflexivity].
      + (* a character *)
        unfold Inv. cbn [hd_step fst h_fsm h_row]. unfold hd_fsm_next. rewrite Ef, En. cbn [h_fsm h_row].
        unfold hd_row_next. rewrite En.
        assert (Hps : part_of s r = []) by (unfold part_of; rewrite Ef; reflexivity). rewrite Hps, app_nil_r in HS.
        unfold part_of. cbn [h_fsm]. rewrite app_nil_r.
        rewrite taken_snoc in *. rewrite sent_snoc. cbn [fst snd] in *.
        assert (Eo : ho_rd (hd_o ROWS COLS s i) = hi_rd i /\ ho_vld (hd_o ROWS COLS s i) = hi_vld i) by (unfold hd_o; rewrite En; destruct (is_ff i); auto).
        destruct Eo as [Eo1 Eo2]. rewrite Eo1, Eo2 in *.
        destruct (hi_vld i && hi_rd i) eqn:Ea; [|rewrite !app_nil_r; split; [exact HS|exact HI]].
        apply andb_prop in Ea. destruct Ea as [Ev Er].
        assert (Hc : hi_data i <> NL) by (unfold is_nl in En; rewrite Ev in En; cbn [andb] in En; lia).
        rewrite text_cmds_app, map_app, HS, text_row_snoc. fold (text_row ROWS (taken t)). fold r. cbn [text_cmds]. rewrite app_nil_r.
        unfold char_cmds, char_row. rewrite (proj2 (Nat.eqb_neq _ _) Hc).
        apply ff_app in Hff. destruct Hff as [_ Hff]. cbn [ff_first] in Hff. fold (text_row ROWS (taken t)) in Hff. fold r in Hff.
        unfold hd_o, is_ff. rewrite En, Ev. cbn [andb]. destruct (Nat.eqb_spec (hi_data i) FF) as [E|E]; cbn [ho_cmd map].
        * split; [reflexivity|]. rewrite HI. apply Hff. exact E.
        * split; [reflexivity|]. exact HI.
    - (* jump to the next line *)
      specialize (Hnl ltac:(discriminate)). destruct HI as [Hrow Hoff].
      assert (Eo : hd_o ROWS COLS s i = mk_hdo false true (Some (jump COLS (next_row ROWS r)))).
      { unfold hd_o. rewrite Hnl, Ef, Hrow, offset_ok by (apply next_lt; exact Hr). reflexivity. }
      assert (Et : taken (t ++ [(i, hd_o ROWS COLS s i)]) = taken t) by (rewrite taken_snoc, Eo; cbn [fst snd ho_rd]; rewrite andb_false_r, app_nil_r; reflexivity).
      assert (Hoff' : offers_nl (t ++ [(i, hd_o ROWS COLS s i)])).
      { exists t, (i, hd_o ROWS COLS s i). unfold is_nl in Hnl. apply andb_prop in Hnl. destruct Hnl as [E1 E2]. rewrite Eo. cbn [fst snd ho_rd].
        split; [reflexivity|]. split; [exact E1|]. split; [lia|reflexivity]. }
      unfold Inv. rewrite Et. fold r. cbn [hd_step fst h_fsm h_row h_col h_lvld h_lrd]. unfold hd_fsm_next, hd_row_next, hd_col_next. rewrite Ef, Hnl.
      rewrite sent_snoc, Eo, HS. cbn [fst snd ho_vld ho_cmd ho_rd andb]. unfold part_of. cbn [h_fsm h_col]. rewrite Ef.
      destruct (hi_rd i).
      * split; [|split; [exact Hrow|split; [rewrite <- Eo; exact Hoff'|split; [lia|split; reflexivity]]]].
        rewrite !map_app. cbn [repeat]. rewrite <- app_assoc. reflexivity.
      * split; [rewrite app_nil_r; reflexivity|]. split; [exact Hrow|]. rewrite <- Eo. exact Hoff'.
    - (* clean the line *)
      specialize (Hnl ltac:(discriminate)). destruct HI as (Hrow & Hoff & Hcol & Hlv & Hlr).
      assert (Eo : hd_o ROWS COLS s i = mk_hdo false true (Some (dat_cmd SPACE))).
      { unfold hd_o. rewrite Hnl, Ef, Hlv, Hlr. reflexivity. }
      assert (Et : taken (t ++ [(i, hd_o ROWS COLS s i)]) = taken t) by (rewrite taken_snoc, Eo; cbn [fst snd ho_rd]; rewrite andb_false_r, app_nil_r; reflexivity).
      assert (Hoff' : offers_nl (t ++ [(i, hd_o ROWS COLS s i)])).
      { exists t, (i, hd_o ROWS COLS s i). unfold is_nl in Hnl. apply andb_prop in Hnl. destruct Hnl as [E1 E2]. rewrite Eo. cbn [fst snd ho_rd].
        split; [reflexivity|]. split; [exact E1|]. split; [lia|reflexivity]. }
      unfold Inv. rewrite Et. fold r. cbn [hd_step fst h_fsm h_row h_col h_lvld h_lrd]. unfold hd_fsm_next, hd_row_next, hd_col_next. rewrite Ef, Hnl.
      rewrite sent_snoc, Eo, HS. cbn [fst snd ho_vld ho_cmd ho_rd andb]. unfold part_of. cbn [h_fsm h_col]. rewrite Ef.
      destruct (hi_rd i); cbn [andb].
      * assert (ES : map Some (text_cmds ROWS COLS 0 (taken t) ++ [jump COLS (next_row ROWS r)] ++ repeat (dat_cmd SPACE) (h_col s)) ++ [Some (dat_cmd SPACE)]
          = map Some (text_cmds ROWS COLS 0 (taken t) ++ [jump COLS (next_row ROWS r)] ++ repeat (dat_cmd SPACE) (S (h_col s)))).
        { rewrite repeat_S_snoc. rewrite !map_app. rewrite <- !app_assoc. reflexivity. }
        rewrite ES. destruct (Nat.eqb_spec (h_col s) (COLS - 1)) as [E|E].
        -- split; [rewrite E; replace (S (COLS - 1)) with COLS by lia; reflexivity|]. split; [exact Hrow|]. rewrite <- Eo. exact Hoff'.
        -- rewrite winc_small by lia. rewrite Nat.add_1_r. split; [reflexivity|]. split; [exact Hrow|]. split; [rewrite <- Eo; exact Hoff'|]. split; [lia|auto].
      * split; [rewrite app_nil_r; reflexivity|]. split; [exact Hrow|]. split; [rewrite <- Eo; exact Hoff'|]. auto.
    - (* jump to its beginning *)
      specialize (Hnl ltac:(discriminate)). destruct HI as [Hrow Hoff].
      assert (Ev : hi_vld i = true /\ hi_data i = NL) by (unfold is_nl in Hnl; apply andb_prop in Hnl; destruct Hnl; split; [assumption|lia]). destruct Ev as [Ev Ed].
      assert (Eo : hd_o ROWS COLS s i = mk_hdo (hi_rd i) true (Some (jump COLS (next_row ROWS r)))).
      { unfold hd_o. rewrite Hnl, Ef, Hrow, offset_ok, Ev by (apply next_lt; exact Hr). reflexivity. }
      unfold Inv. cbn [hd_step fst h_fsm h_row]. unfold hd_fsm_next, hd_row_next. rewrite Ef, Hnl.
      rewrite taken_snoc, sent_snoc, Eo, HS. cbn [fst snd ho_vld ho_cmd ho_rd andb]. rewrite Ev. unfold part_of. cbn [h_fsm]. rewrite Ef.
      destruct (hi_rd i); cbn [andb].
      * rewrite text_row_snoc, text_cmds_app, Ed. fold (text_row ROWS (taken t)). fold r. cbn [text_cmds]. unfold char_cmds, char_row. rewrite Nat.eqb_refl.
        split; [|exact Hrow]. rewrite !app_nil_r. rewrite !map_app. rewrite <- !app_assoc. reflexivity.
      * rewrite !app_nil_r. fold r. split; [reflexivity|]. split; [exact Hrow|].
        exists t, (i, mk_hdo false true (Some (jump COLS (next_row ROWS r)))). auto.
  Qed.

  Lemma Inv_run is lrd lvld : let t := trace step (hd_init lrd lvld) is in held t -> ff_first ROWS 0 (taken t) -> Inv (final step (hd_init lrd lvld) is) t.
  Proof.
    induction is as [|i is IH] using rev_ind; cbv zeta; intros Hh Hff.
    - split; reflexivity.
    - rewrite final_snoc, trace_snoc in *. cbn [hd_step snd] in *.
      apply Inv_step; [|exact Hh|exact Hff]. apply IH; [exact (held_prefix _ _ Hh)|].
      rewrite taken_snoc in Hff. apply ff_app in Hff. apply Hff.
  Qed.

  Lemma c154 is lrd lvld : let t := trace step (hd_init lrd lvld) is in held t -> ff_first ROWS 0 (taken t) -> told ROWS COLS t.
  Proof.
    intros t Hh Hff. destruct (Inv_run is lrd lvld Hh Hff) as [HS HI]. fold t in HS, HI. exists (part_of (final step (hd_init lrd lvld) is) (trow t)). split; [exact HS|].
    set (s := final step (hd_init lrd lvld) is) in *. unfold part_of. destruct (h_fsm s) eqn:Ef; [left; reflexivity|left; reflexivity| |].
    - right. destruct HI as (_ & (t' & c & E & H1 & H2 & H3) & Hcol & _). exists t', c, (repeat (dat_cmd SPACE) (COLS - h_col s) ++ [jump COLS (next_row ROWS (trow t))]).
      split; [exact E|]. split; [exact H1|]. split; [exact H3|]. split; [|destruct (COLS - h_col s); discriminate].
      rewrite H2. unfold char_cmds. rewrite Nat.eqb_refl. rewrite <- !app_assoc. f_equal. rewrite app_assoc, <- repeat_app. do 2 f_equal. lia.
    - right. destruct HI as (_ & (t' & c & E & H1 & H2 & H3)). exists t', c, [jump COLS (next_row ROWS (trow t))].
      split; [exact E|]. split; [exact H1|]. split; [exact H3|]. split; [|discriminate].
      rewrite H2. unfold char_cmds. rewrite Nat.eqb_refl. rewrite <- !app_assoc. reflexivity.
  Qed.

  (** * progress, for any text *)
  Definition mu (s : hd_st) : nat :=
    match h_fsm s with RowIncr => COLS + 2 | JmpNext => COLS + 1 | CleanLine => COLS - h_col s | JmpStart => 0 end.
  Lemma progress js : forall s, (h_fsm s = CleanLine -> h_col s < COLS) -> (forall i, In i js -> hi_vld i = true /\ hi_rd i = true) ->
    (h_fsm s <> RowIncr -> exists i js', js = i :: js' /\ is_nl i = true) -> held (trace step s js) -> mu s < length js ->
    (h_fsm s = CleanLine -> h_lrd s = false) -> taken (trace step s js) <> [].
  Proof.
    induction js as [|i js IH]; intros s Hcol Hjs Hnl Hh Hl Hlr; [cbn in Hl; lia|].
    destruct (Hjs i (or_introl eq_refl)) as [Ev Er]. rewrite trace_cons in *. unfold taken. cbn [flat_map fst snd].
    destruct (ho_rd (snd (step s i))) eqn:Ed; [rewrite Ev; discriminate|]. rewrite andb_false_r. cbn [app].
    assert (En : is_nl i = true).
    { destruct (h_fsm s) eqn:Ef; [|destruct (Hnl ltac:(discriminate)) as (i' & js' & E & H); injection E as <- _; exact H..].
      destruct (is_nl i) eqn:En; [reflexivity|]. cbn [hd_step snd] in Ed. unfold hd_o in Ed. rewrite En in Ed. destruct (is_ff i); cbn [ho_rd] in Ed; congruence. }
    apply IH.
    - cbn [hd_step fst h_fsm h_col]. unfold hd_fsm_next, hd_col_next. rewrite En. destruct (h_fsm s) eqn:Ef; try discriminate.
      + rewrite Er. lia.
      + rewrite Er. cbn [andb]. destruct (Nat.eqb_spec (h_col s) (COLS - 1)); [discriminate|]. intros _. rewrite winc_small; specialize (Hcol eq_refl); lia.
      + rewrite Er. discriminate.
    - intros j Hj. apply Hjs. right. exact Hj.
    - intros _. destruct js as [|j js]; [|].
      + exfalso. cbn [length] in Hl. cbn [hd_step snd] in Ed. unfold mu in Hl. unfold hd_o in Ed. rewrite En in Ed. destruct (h_fsm s) eqn:Ef; cbn [ho_rd] in Ed; try lia.
        congruence.
      + exists j, js. split; [reflexivity|]. rewrite trace_cons in Hh. cbn [held fst snd] in Hh. destruct Hh as [Hh _]. destruct (Hh Ev Ed) as [E1 E2].
        unfold is_nl in *. rewrite E1, E2. rewrite Ev in En. exact En.
    - destruct (trace step (fst (step s i)) js) as [|x xs] eqn:Et; [exact I|]. cbn [held] in Hh. apply Hh.
    - unfold mu in *. cbn [hd_step fst h_fsm h_col]. unfold hd_fsm_next, hd_col_next. rewrite En, Er. cbn [andb length] in *. destruct (h_fsm s) eqn:Ef.
      + lia.
      + lia.
      + specialize (Hcol eq_refl). destruct (Nat.eqb_spec (h_col s) (COLS - 1)); [lia|]. rewrite winc_small by lia. lia.
      + exfalso. cbn [hd_step snd] in Ed. unfold hd_o in Ed. rewrite En, Ef in Ed. cbn [ho_rd] in Ed. congruence.
    - intros _. cbn [hd_step fst h_lrd]. cbn [hd_step snd] in Ed. exact Ed.
  Qed.

  Lemma c154_progress is lrd lvld js : held (trace step (hd_init lrd lvld) (is ++ js)) -> ff_first ROWS 0 (taken (trace step (hd_init lrd lvld) is)) ->
    (forall i, In i js -> hi_vld i = true /\ hi_rd i = true) -> COLS + 3 <= length js ->
    taken (trace step (final step (hd_init lrd lvld) is) js) <> [].
  Proof.
    intros Hh Hff Hjs Hl. rewrite trace_app in Hh.
    assert (H1 : held (trace step (hd_init lrd lvld) is)).
    { clear -Hh. set (a := trace step (hd_init lrd lvld) is) in *. set (b := trace step (final step (hd_init lrd lvld) is) js) in *. clearbody a b. revert Hh.
      induction b as [|x b IH] using rev_ind; intros H; [rewrite app_nil_r in H; exact H|]. apply IH. rewrite app_assoc in H. exact (held_prefix _ _ H). }
    assert (H2 : held (trace step (final step (hd_init lrd lvld) is) js)).
    { clear -Hh. set (a := trace step (hd_init lrd lvld) is) in *. clearbody a. induction a as [|x a IH]; [exact Hh|]. apply IH. cbn [app held] in Hh.
      destruct (a ++ trace step (final step (hd_init lrd lvld) is) js); [exact I|apply Hh]. }
    destruct (Inv_run is lrd lvld H1 Hff) as [_ HI]. set (s := final step (hd_init lrd lvld) is) in *.
    apply progress; try assumption.
    - intros Ef. rewrite Ef in HI. apply HI.
    - intros Hne. destruct js as [|j js]; [cbn in Hl; lia|]. exists j, js. split; [reflexivity|].
      assert (offers_nl (trace step (hd_init lrd lvld) is)) as (t' & c & E & E1 & E2 & E3) by (destruct (h_fsm s); [congruence|apply HI|apply HI|apply HI]).
      rewrite E, trace_cons, <- app_assoc in Hh. cbn [app] in Hh.
      assert (Hh' : held (t' ++ [c; (j, snd (step s j))])).
      { clear -Hh. revert Hh. generalize (trace step (fst (step s j)) js). intros b. induction b as [|x b IH] using rev_ind; [auto|]. intros H. apply IH.
        change (t' ++ c :: (j, snd (step s j)) :: b ++ [x]) with (t' ++ (c :: (j, snd (step s j)) :: b) ++ [x]) in H. rewrite app_assoc in H. exact (held_prefix _ _ H). }
      destruct (held_last _ _ _ Hh' E1 E3) as [X1 X2]. cbn [fst] in X1, X2. unfold is_nl. rewrite X1, X2, E2. reflexivity.
    - unfold mu. destruct (h_fsm s); lia.
    - intros Ef. rewrite Ef in HI. apply HI.
  Qed.
End P.

Lemma untold ROWS COLS t : match rev t with c :: _ => ho_rd (snd c) = true | [] => True end -> sent t <> map Some (text_cmds ROWS COLS 0 (taken t)) -> ~ told ROWS COLS t.
Proof.
  intros Hl Hne (part & HS & [->|(t' & c & q & -> & _ & H3 & _)]).
  - rewrite app_nil_r in HS. contradiction.
  - rewrite rev_unit in Hl. congruence.
Qed.

Lemma rows_full ROWS : full_rows ROWS -> 2 ^ row_w ROWS = ROWS.
Proof. intros (k & Hk & ->). unfold row_w. now rewrite log2ceil_pred. Qed.
Lemma cols_full COLS : cols_fit COLS -> 1 <= COLS <= 2 ^ col_w COLS.
Proof. exact (fun H => H). Qed.
