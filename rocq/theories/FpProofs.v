(** Proofs about Axi4S_frameParser. *)
From Verif Require Import Base BaseFacts FpModel FpSpec.

(** * slices *)
Definition slice (a b : nat) (l : list bool) := firstn (b - a) (skipn a l).
Lemma skipn_plus : forall (l : list bool) a b, skipn a (skipn b l) = skipn (b + a) l.
Proof. intros l a b. revert l. induction b as [|b IH]; intros l; [reflexivity|]. destruct l; [rewrite !skipn_nil; reflexivity|]. cbn. apply IH. Qed.
Lemma firstn_plus : forall (l : list bool) a b, firstn a l ++ firstn b (skipn a l) = firstn (a + b) l.
Proof. intros l a b. revert l. induction a as [|a IH]; intros l; [reflexivity|]. destruct l; [cbn; rewrite firstn_nil; reflexivity|]. cbn. f_equal. apply IH. Qed.
Lemma slice_app : forall a b c l, a <= b -> b <= c -> slice a b l ++ slice b c l = slice a c l.
Proof.
  intros a b c l H1 H2. unfold slice. replace (skipn b l) with (skipn (b - a) (skipn a l)) by (rewrite skipn_plus; f_equal; lia).
  rewrite firstn_plus. f_equal. lia.
Qed.

Section S.
  Variables (W : nat) (fields : list fld).
  Hypothesis HW : 1 <= W.
  Hypothesis Hne : fields <> [].
  Hypothesis Hpos : forall f, In f fields -> 1 <= f_w f.

  Lemma stop_eq : forall j, j < length fields -> stop fields j = offset fields j + width fields j.
  Proof.
    intros j Hj. unfold stop, start, offset, width. destruct (nth_error fields j) as [f|] eqn:E.
    - rewrite (nth_error_nth _ _ _ E). reflexivity.
    - apply nth_error_None in E. lia.
  Qed.
  Lemma width_pos : forall j, j < length fields -> 1 <= width fields j.
  Proof. intros j Hj. unfold width. apply Hpos. apply nth_In. exact Hj. Qed.
  Lemma stop_le : forall j, j < length fields -> offset fields j + width fields j <= total fields.
  Proof.
    intros j Hj. unfold offset, width, total. revert Hj. clear. revert j. induction fields as [|f l IH]; intros j Hj; cbn in Hj; [lia|].
    destruct j as [|j]; cbn [firstn map nth]; unfold list_sum in *; cbn [fold_right]; [lia|]. specialize (IH j ltac:(lia)). lia.
  Qed.
  Lemma total_pos : 1 <= total fields.
  Proof. destruct fields as [|f l]; [congruence|]. unfold total. cbn. pose proof (Hpos f (or_introl eq_refl)). lia. Qed.
  Lemma nwords_eq : nwords W fields = max_word W fields + 1.
  Proof.
    unfold nwords, max_word. pose proof total_pos. unfold total in *. replace (list_sum (map f_w fields) + W - 1) with (list_sum (map f_w fields) - 1 + 1 * W) by lia.
    rewrite Nat.div_add by lia. reflexivity.
  Qed.
  Lemma named_iff : forall j, named fields j = true <-> is_field fields j.
  Proof.
    intros j. unfold named, is_field. destruct (nth_error fields j) as [f|] eqn:E.
    - rewrite (nth_error_nth _ _ _ E). assert (j < length fields) by (apply nth_error_Some; congruence). tauto.
    - apply nth_error_None in E. split; [discriminate|lia].
  Qed.
  Lemma last_word_eq : forall j, j < length fields -> last_word W fields j = ends_in W fields j.
  Proof. intros j Hj. unfold last_word, ends_in. rewrite stop_eq by exact Hj. reflexivity. Qed.
  Lemma last_le : forall j, j < length fields -> last_word W fields j <= max_word W fields.
  Proof. intros j Hj. unfold last_word, max_word. apply Nat.div_le_mono; [lia|]. rewrite stop_eq by exact Hj. pose proof (stop_le j Hj). lia. Qed.
  Lemma nodes_iff : forall w j, In j (nodes W fields w) <-> named fields j = true /\ last_word W fields j = w.
  Proof.
    intros w j. unfold nodes. rewrite filter_In, in_seq, Bool.andb_true_iff, Nat.eqb_eq. split; [tauto|]. intros [H1 H2]. split; [|tauto].
    apply named_iff in H1. destruct H1. lia.
  Qed.

  (** * values *)
  Section V.
    Variable g : nat -> list bool.
    Hypothesis Hg : forall k, length (g k) = W.
    Lemma concat_len : forall n a, length (concat (map g (seq a n))) = n * W.
    Proof. induction n as [|n IH]; intros a; [reflexivity|]. cbn [seq map concat]. rewrite app_length, Hg, IH. lia. Qed.
    Lemma word_slice : forall e w a b, w <= e -> w * W <= a -> a <= b -> b <= (w + 1) * W ->
      firstn (b - a) (skipn (a - w * W) (g w)) = slice a b (concat (map g (seq 0 (S e)))).
    Proof.
      intros e w a b Hw H1 H2 H3. replace (S e) with (w + S (e - w)) by lia. rewrite seq_app, map_app, concat_app. cbn [seq map concat]. rewrite Nat.add_0_l.
      unfold slice. rewrite skipn_app, concat_len. rewrite (skipn_all2 (n := a) (concat (map g (seq 0 w)))) by (rewrite concat_len; exact H1). cbn [app].
      rewrite skipn_app, firstn_app. rewrite skipn_length, Hg. replace (b - a - (W - (a - w * W))) with 0 by lia. cbn [firstn]. rewrite app_nil_r. reflexivity.
    Qed.
    Lemma parts_value : forall j, j < length fields -> let e := last_word W fields j in let f := first_word W fields j in
      flat_map (fun w => part W fields j w (g w)) (seq f (e - f)) ++ part W fields j e (g e) = bits (offset fields j) (width fields j) (concat (map g (seq 0 (S e)))).
    Proof.
      intros j Hj e f. set (L := concat (map g (seq 0 (S e)))). pose proof (width_pos j Hj) as Hw. pose proof (stop_eq j Hj) as Hs.
      assert (Es : start fields j = offset fields j) by reflexivity.
      assert (Hfe : f <= e). { unfold f, e, first_word, last_word. apply Nat.div_le_mono; lia. }
      pose proof (Nat.div_mod (offset fields j) W ltac:(lia)) as D1. pose proof (Nat.mod_upper_bound (offset fields j) W ltac:(lia)) as D2.
      pose proof (Nat.div_mod (stop fields j - 1) W ltac:(lia)) as D3. pose proof (Nat.mod_upper_bound (stop fields j - 1) W ltac:(lia)) as D4.
      assert (Ef : f = offset fields j / W) by reflexivity. assert (Ee : e = (stop fields j - 1) / W) by reflexivity. rewrite <- Ef in D1. rewrite <- Ee in D3.
      assert (P : forall w, f <= w -> w <= e -> part W fields j w (g w) = slice (Nat.max (start fields j) (w * W)) (Nat.min (stop fields j) ((w + 1) * W)) L).
      { intros w H1 H2. unfold part. apply word_slice; [exact H2|lia| |lia].
        assert (w * W <= e * W) by (apply Nat.mul_le_mono_r; lia). assert (f * W <= w * W) by (apply Nat.mul_le_mono_r; lia). rewrite Es. lia. }
      assert (Q : forall n, f + n <= e -> flat_map (fun w => part W fields j w (g w)) (seq f n) = slice (start fields j) (Nat.max (start fields j) ((f + n) * W)) L).
      { induction n as [|n IH]; intros Hn.
        - cbn [seq flat_map]. unfold slice. replace (Nat.max (start fields j) ((f + 0) * W) - start fields j) with 0 by (rewrite Es; lia). reflexivity.
        - rewrite seq_S, flat_map_app. cbn [flat_map]. rewrite app_nil_r, IH, P by lia.
          assert ((f + n + 1) * W <= e * W) by (apply Nat.mul_le_mono_r; lia). assert (f * W <= (f + n) * W) by (apply Nat.mul_le_mono_r; lia).
          replace (Nat.min (stop fields j) ((f + n + 1) * W)) with ((f + n + 1) * W) by lia.
          rewrite slice_app; [|lia|rewrite Es; lia]. f_equal. replace (f + S n) with (f + n + 1) by lia. rewrite Es. lia. }
      rewrite Q by lia. rewrite P by lia. replace (f + (e - f)) with e by lia. assert (f * W <= e * W) by (apply Nat.mul_le_mono_r; lia).
      rewrite slice_app; [|lia|rewrite Es; lia]. unfold slice, bits. replace (Nat.min (stop fields j) ((e + 1) * W)) with (stop fields j) by lia. rewrite Es. f_equal. lia.
    Qed.
  End V.

  (** * the run *)
  Variables (OVF UNF : bool) (src : nat -> list bool) (lst : nat -> bool).
  Hypothesis Hsrc : forall k, length (src k) = W.
  Hypothesis Hal : OVF = true -> total fields mod W = 0.
  Notation N := (nwords W fields).
  Notation plc := (place (OVF || UNF) N lst).
  Hypothesis Hlong : OVF = false -> UNF = true -> forall k, plc k = N - 1 -> lst k = true.
  Notation stp := (p_step W fields OVF UNF).
  Notation mw := (max_word W fields).
  Notation lw := (last_word W fields).
  Definition evs (j A : nat) : list nat := filter (fun k => plc k =? lw j) (seq 0 A).

  Lemma plc_le : forall k, plc k <= if OVF then N else mw.
  Proof.
    pose proof nwords_eq as E. induction k as [|k IH]; [cbn; destruct OVF; lia|]. cbn [place].
    destruct OVF eqn:EO; cbn [orb] in *.
    - destruct (lst k); lia.
    - destruct UNF eqn:EU.
      + specialize (Hlong eq_refl eq_refl k). destruct (lst k) eqn:El; [lia|].
        destruct (Nat.eq_dec (place true N lst k) (N - 1)) as [Q|Q]; [specialize (Hlong Q); discriminate|]. lia.
      + destruct (Nat.eqb_spec (place false N lst k) (N - 1)); lia.
  Qed.
  Lemma plc_lek : forall k, plc k <= k.
  Proof. induction k as [|k IH]; [cbn; lia|]. cbn [place]. destruct (if OVF || UNF then _ else _); lia. Qed.
  Lemma ovf_eq : forall k, (OVF && (if aligned W fields then plc k =? max_val W fields OVF else mw <=? plc k)) = OVF && (plc k =? N).
  Proof.
    intros k. destruct OVF; [|reflexivity]. unfold aligned. rewrite (Hal eq_refl). cbn [Nat.eqb andb]. unfold max_val. rewrite nwords_eq. reflexivity.
  Qed.
  Lemma plc_next : forall k, (if max_val W fields OVF =? 0 then 0 else
      if (if OVF || UNF then lst k else plc k =? mw) then 0 else if OVF && (plc k =? max_val W fields OVF) then plc k else winc (wi_w W fields OVF) (plc k)) = plc (S k).
  Proof.
    intros k. pose proof nwords_eq as E. pose proof (plc_le k) as Hle. pose proof (plc_le (S k)) as Hle'. cbn [place] in *.
    replace mw with (N - 1) by lia. 
    destruct (Nat.eqb_spec (max_val W fields OVF) 0) as [Z|Z].
    { unfold max_val in Z. destruct OVF; [lia|]. revert Hle'. destruct (if false || UNF then _ else _); lia. }
    destruct (if OVF || UNF then lst k else plc k =? N - 1) eqn:El; [reflexivity|].
    destruct (Nat.eqb_spec (plc k) (max_val W fields OVF)) as [Q|Q].
    - destruct OVF; cbn [andb]; unfold max_val in Q; [lia|]. exfalso. cbn [orb] in *. destruct UNF.
      + specialize (Hlong eq_refl eq_refl k ltac:(lia)). congruence.
      + apply Nat.eqb_neq in El. lia.
    - rewrite Bool.andb_false_r. unfold wi_w. pose proof (log2ceil_ge (max_val W fields OVF + 1)) as HL. unfold max_val in *. rewrite winc_small; destruct OVF; lia.
  Qed.
  Lemma lw_N : forall j, named fields j = true -> lw j < N.
  Proof. intros j Hj. rewrite nwords_eq. apply named_iff in Hj. destruct Hj as [Hj _]. pose proof (last_le j Hj). lia. Qed.

  Record Inv (s : p_st) (A : nat) (tk : nat -> list (list bool)) : Prop := {
    v_wi : p_wi s = plc A;
    v_parts : plc A < N -> forall j w, named fields j = true -> first_word W fields j <= w -> w < lw j -> w < plc A -> p_parts s j w = part W fields j w (src (A - plc A + w));
    v_cons : forall j, p_cons s j = true -> named fields j = true /\ lw j = plc A /\ flag W fields (plc A) = true;
    v_tk : forall j, named fields j = true -> tk j = map (value W fields src j) (evs j A ++ if p_cons s j then [A] else [])
  }.

  Lemma word_ack_split : forall s i w j, named fields j = true -> lw j = w -> word_ack W fields s i w = node_ack W fields s i w j && others_ack W fields s i w j.
  Proof.
    intros s i w j H1 H2. apply Bool.eq_true_iff_eq. unfold word_ack, others_ack. rewrite Bool.andb_true_iff, !forallb_forall. split.
    - intros H. split; [apply H, nodes_iff; auto|]. intros x Hx. rewrite (H x Hx). apply Bool.orb_true_r.
    - intros [Ha Hb] x Hx. specialize (Hb x Hx). apply Bool.orb_true_iff in Hb. destruct Hb as [Hb|Hb]; [|exact Hb]. apply Nat.eqb_eq in Hb. subst x. exact Ha.
  Qed.
  Lemma value_out : forall s A tk j i, Inv s A tk -> named fields j = true -> lw j = plc A -> i_d i = src A ->
    flat_map (p_parts s j) (seq (first_word W fields j) (lw j - first_word W fields j)) ++ part W fields j (lw j) (i_d i) = value W fields src j A.
  Proof.
    intros s A tk j i HI Hn Hl Hd. pose proof (lw_N j Hn) as HN. pose proof (plc_lek A) as HA. assert (Hj : j < length fields) by (apply named_iff in Hn; apply Hn).
    pose proof (parts_value (fun w => src (A - lw j + w)) (fun k => Hsrc _) j Hj) as P. cbn zeta in P. unfold value. rewrite <- last_word_eq by exact Hj.
    rewrite Hd. replace (map src (seq (A - lw j) (S (lw j)))) with (map (fun w => src (A - lw j + w)) (seq 0 (S (lw j)))).
    - rewrite <- P. f_equal.
      + assert (F : forall l, (forall w, In w l -> p_parts s j w = part W fields j w (src (A - lw j + w))) -> flat_map (p_parts s j) l = flat_map (fun w => part W fields j w (src (A - lw j + w))) l).
        { induction l as [|x l IH]; intros H; [reflexivity|]. cbn [flat_map]. rewrite (H x (or_introl eq_refl)), IH; [reflexivity|]. intros w Hw. apply H. right. exact Hw. }
        apply F. intros w Hw. apply in_seq in Hw. rewrite Hl. apply (v_parts _ _ _ HI); [lia|exact Hn|lia|lia|lia].
      + f_equal. f_equal. lia.
    - generalize (S (lw j)). intros n. clear. generalize (A - lw j). intros a. replace (seq a n) with (seq (a + 0) n) by (f_equal; lia). generalize 0. induction n as [|n IH]; intros b; [reflexivity|].
      cbn [seq map]. f_equal. rewrite IH. f_equal. f_equal. lia.
  Qed.

  Definition add (c : p_in * p_out) (tk : nat -> list (list bool)) : nat -> list (list bool) :=
    fun j => tk j ++ (if o_v (snd c) j && i_frd (fst c) j then [o_d (snd c) j] else []).
  Lemma evs_S : forall j A, evs j (S A) = evs j A ++ if plc A =? lw j then [A] else [].
  Proof. intros j A. unfold evs. rewrite seq_S, filter_app. cbn [filter]. rewrite Nat.add_0_l. reflexivity. Qed.

  Definition fresh (s : p_st) (j : nat) : bool := negb (p_cons s j).
  (** outputs *)
  Lemma out_v : forall s A tk i j, Inv s A tk -> named fields j = true -> o_v (snd (stp s i)) j = (plc A =? lw j) && negb (p_cons s j) && i_v i.
  Proof.
    intros s A tk i j HI Hn. cbn [p_step snd o_v]. rewrite (v_wi _ _ _ HI), ovf_eq, Hn. cbn [andb]. rewrite (Nat.eqb_sym (lw j)).
    destruct (Nat.eqb_spec (plc A) (lw j)) as [E|E]; [|reflexivity]. cbn [andb]. pose proof (lw_N j Hn). rewrite (proj2 (Nat.eqb_neq (plc A) N)) by lia. rewrite Bool.andb_false_r. cbn [negb]. rewrite Bool.andb_true_r.
    destruct (p_cons s j) eqn:EC; [|rewrite Bool.andb_false_r; reflexivity]. destruct (v_cons _ _ _ HI j EC) as (_ & _ & F). rewrite F. reflexivity.
  Qed.
  Lemma out_r : forall s A tk i, Inv s A tk -> o_r (snd (stp s i)) = (plc A =? N) || word_ack W fields s i (plc A).
  Proof.
    intros s A tk i HI. cbn [p_step snd o_r]. rewrite (v_wi _ _ _ HI), ovf_eq. pose proof nwords_eq as E. pose proof (plc_le A) as H. revert H. generalize (plc A). intros P H. clear HI. destruct OVF; cbn [andb].
    - destruct (Nat.eqb_spec P N); [rewrite Bool.orb_true_r; reflexivity|]. rewrite (proj2 (Nat.leb_le P mw)) by lia. rewrite Bool.orb_false_r. reflexivity.
    - rewrite (proj2 (Nat.leb_le P mw)) by lia. rewrite (proj2 (Nat.eqb_neq P N)) by lia. rewrite Bool.orb_false_r. reflexivity.
  Qed.
  Lemma no_node_N : plc 0 = plc 0 -> nodes W fields N = [].
  Proof.
    intros _. destruct (nodes W fields N) as [|x l] eqn:E; [reflexivity|]. assert (In x (nodes W fields N)) by (rewrite E; left; reflexivity).
    apply nodes_iff in H. destruct H as [H1 H2]. pose proof (lw_N x H1). lia.
  Qed.
  Lemma out_r' : forall s A tk i, Inv s A tk -> o_r (snd (stp s i)) = word_ack W fields s i (plc A).
  Proof.
    intros s A tk i HI. rewrite (out_r _ _ _ _ HI). destruct (Nat.eqb_spec (plc A) N) as [E|E]; [|reflexivity]. unfold word_ack. rewrite E, no_node_N by reflexivity. reflexivity.
  Qed.
  Lemma flag_one : forall w j k, flag W fields w = false -> In j (nodes W fields w) -> In k (nodes W fields w) -> k = j.
  Proof.
    intros w j k F H1 H2. unfold flag in F. apply Nat.ltb_ge in F. destruct (nodes W fields w) as [|a [|b l]]; cbn in *; [tauto| |lia]. destruct H1 as [<-|[]]. destruct H2 as [<-|[]]. reflexivity.
  Qed.

  Lemma cons_step : forall s i j, (named fields j = false -> p_cons s j = false) ->
    p_cons (fst (stp s i)) j = cons_next W fields s i (OVF && (if aligned W fields then p_wi s =? max_val W fields OVF else mw <=? p_wi s)) j.
  Proof.
    intros s i j H. unfold p_cons at 1. cbn [p_step fst p_flags]. set (f := cons_next _ _ _ _ _). destruct (Nat.lt_ge_cases j (length fields)) as [L|L].
    - rewrite (nth_indep _ false (f 0)) by (rewrite map_length, seq_length; exact L). rewrite map_nth, seq_nth by exact L. reflexivity.
    - rewrite nth_overflow by (rewrite map_length, seq_length; exact L). unfold f, cons_next. assert (En : named fields j = false) by (unfold named; rewrite (proj2 (nth_error_None fields j) L); reflexivity).
      rewrite En, (H En). reflexivity.
  Qed.
  Lemma cons_named : forall s A tk j, Inv s A tk -> named fields j = false -> p_cons s j = false.
  Proof. intros s A tk j HI Hn. destruct (p_cons s j) eqn:EC; [|reflexivity]. destruct (v_cons _ _ _ HI j EC). congruence. Qed.

  Lemma inv_step : forall s A tk i, Inv s A tk -> (i_v i = true -> i_d i = src A /\ i_l i = lst A) ->
    Inv (fst (stp s i)) (if i_v i && o_r (snd (stp s i)) then S A else A) (add (i, snd (stp s i)) tk).
  Proof.
    intros s A tk i HI Hin. pose proof (out_r' s A tk i HI) as HR.
    destruct (i_v i) eqn:EV.
    2:{ cbn [andb]. constructor.
        - cbn [p_step fst p_wi]. rewrite EV. cbn [andb]. destruct (Nat.eqb_spec (max_val W fields OVF) 0) as [Z|Z]; [|apply (v_wi _ _ _ HI)].
          pose proof (plc_le A) as H. unfold max_val in Z. destruct OVF; lia.
        - intros HN j w Hn H1 H2 H3. cbn [p_step fst p_parts]. rewrite EV, Bool.andb_false_r. cbn [andb]. apply (v_parts _ _ _ HI); assumption.
        - intros j. rewrite cons_step by apply (cons_named _ _ _ _ HI). unfold cons_next. rewrite EV, Bool.andb_false_r. apply (v_cons _ _ _ HI).
        - intros j Hn. unfold add. cbn [fst snd]. rewrite (out_v _ _ _ _ j HI Hn), EV, Bool.andb_false_r. cbn [andb]. rewrite app_nil_r.
          rewrite cons_step by apply (cons_named _ _ _ _ HI). unfold cons_next. rewrite EV, Bool.andb_false_r. apply (v_tk _ _ _ HI). exact Hn. }
    destruct (Hin eq_refl) as [Hd Hl]. cbn [andb]. rewrite HR.
    assert (HC : forall j, p_cons (fst (stp s i)) j = if word_ack W fields s i (plc A) then false
                  else named fields j && (plc A =? lw j) && (p_cons s j || i_frd i j)).
    { intros j. rewrite cons_step by apply (cons_named _ _ _ _ HI). unfold cons_next. rewrite (v_wi _ _ _ HI), ovf_eq, EV, (Nat.eqb_sym (lw j)), Bool.andb_true_r.
      destruct (named fields j) eqn:En; cbn [andb].
      2:{ destruct (p_cons s j) eqn:EC; [destruct (v_cons _ _ _ HI j EC); congruence|]. destruct (word_ack _ _ _ _ _); reflexivity. }
      destruct (Nat.eqb_spec (plc A) (lw j)) as [E|E]; cbn [andb].
      2:{ destruct (p_cons s j) eqn:EC; [destruct (v_cons _ _ _ HI j EC); lia|]. destruct (word_ack _ _ _ _ _); reflexivity. }
      pose proof (lw_N j En) as HN. rewrite (proj2 (Nat.eqb_neq (plc A) N)) by lia. rewrite Bool.andb_false_r. cbn [negb]. rewrite Bool.andb_true_r.
      rewrite (word_ack_split s i (plc A) j En (eq_sym E)). unfold node_ack at 1. destruct (flag W fields (plc A)) eqn:EF; cbn [andb].
      - destruct (p_cons s j), (others_ack W fields s i (plc A) j), (i_frd i j); reflexivity.
      - destruct (p_cons s j) eqn:EC; [destruct (v_cons _ _ _ HI j EC) as (_ & _ & Q); congruence|]. rewrite Bool.orb_false_r. cbn [orb].
        assert (O : others_ack W fields s i (plc A) j = true).
        { unfold others_ack. apply forallb_forall. intros k Hk. rewrite (flag_one _ j k EF); [rewrite Nat.eqb_refl; reflexivity| |exact Hk]. apply nodes_iff. auto. }
        rewrite O, Bool.andb_true_r. destruct (i_frd i j); reflexivity. }
    assert (HP : plc A < N -> forall j w, named fields j = true -> first_word W fields j <= w -> w < lw j -> w <= plc A -> p_parts (fst (stp s i)) j w = part W fields j w (src (A - plc A + w))).
    { intros HN j w Hn H1 H2 H3. cbn [p_step fst p_parts]. rewrite (v_wi _ _ _ HI), EV, Hn. cbn [andb]. rewrite (proj2 (Nat.leb_le _ _) H1), (proj2 (Nat.ltb_lt _ _) H2), !Bool.andb_true_r.
      destruct (Nat.eqb_spec w (plc A)) as [E|E]; [|apply (v_parts _ _ _ HI); [exact HN|exact Hn|exact H1|exact H2|lia]].
      rewrite Hd. f_equal. f_equal. pose proof (plc_lek A). lia. }
    constructor.
    - cbn [p_step fst p_wi]. rewrite EV. cbn [andb]. cbn [p_step snd o_r] in HR. rewrite HR. rewrite (v_wi _ _ _ HI), Hl.
      destruct (word_ack W fields s i (plc A)); [apply plc_next|].
      destruct (Nat.eqb_spec (max_val W fields OVF) 0) as [Z|Z]; [|reflexivity]. pose proof (plc_le A) as H. unfold max_val in Z. destruct OVF; lia.
    - destruct (word_ack W fields s i (plc A)) eqn:EW; [|intros HN j w H1 H2 H3 H4; apply HP; [exact HN|exact H1|exact H2|exact H3|lia]].
      intros HN j w Hn H1 H2 H3. cbn [place] in HN, H3 |- *. pose proof (plc_lek A).
      destruct (if OVF || UNF then lst A else plc A =? N - 1); [lia|].
      assert (Q : plc A < N) by (pose proof (plc_le A); destruct (Nat.eq_dec (plc A) N); [|pose proof nwords_eq; destruct OVF; lia]; lia).
      rewrite HP; [|exact Q|exact Hn|exact H1|exact H2|lia]. f_equal. f_equal. lia.
    - intros j. rewrite HC. destruct (word_ack W fields s i (plc A)) eqn:EW; [discriminate|]. rewrite !Bool.andb_true_iff, Nat.eqb_eq. intros [[H1 H2] H3]. split; [exact H1|]. split; [congruence|].
      destruct (flag W fields (plc A)) eqn:EF; [reflexivity|]. exfalso. rewrite (word_ack_split s i (plc A) j H1 (eq_sym H2)) in EW. unfold node_ack in EW. rewrite EF in EW.
      assert (O : others_ack W fields s i (plc A) j = true).
      { unfold others_ack. apply forallb_forall. intros k Hk. rewrite (flag_one _ j k EF); [rewrite Nat.eqb_refl; reflexivity| |exact Hk]. apply nodes_iff. auto. }
      rewrite O in EW. destruct (p_cons s j) eqn:EC; [destruct (v_cons _ _ _ HI j EC) as (_ & _ & Q); congruence|]. cbn [orb] in H3. rewrite H3 in EW. discriminate.
    - intros j Hn. unfold add. cbn [fst snd]. rewrite (out_v _ _ _ _ j HI Hn), EV, Bool.andb_true_r, HC, Hn. cbn [andb]. rewrite (v_tk _ _ _ HI j Hn).
      destruct (Nat.eqb_spec (plc A) (lw j)) as [E|E]; cbn [andb].
      + assert (OD : o_d (snd (stp s i)) j = value W fields src j A) by (cbn [p_step snd o_d]; apply (value_out s A tk); auto). rewrite OD.
        destruct (word_ack W fields s i (plc A)) eqn:EW.
        * rewrite evs_S, (proj2 (Nat.eqb_eq _ _) E), app_nil_r. rewrite (word_ack_split s i (plc A) j Hn (eq_sym E)) in EW. apply Bool.andb_true_iff in EW. destruct EW as [EW _]. unfold node_ack in EW.
          destruct (p_cons s j) eqn:EC; cbn [negb andb].
          -- rewrite app_nil_r. reflexivity.
          -- rewrite Bool.andb_false_r, Bool.orb_false_r in EW. rewrite EW, app_nil_r, map_app. reflexivity.
        * destruct (p_cons s j) eqn:EC; cbn [negb andb orb]; [rewrite app_nil_r; reflexivity|]. destruct (i_frd i j); [rewrite app_nil_r, map_app; reflexivity|]. rewrite app_nil_r. reflexivity.
      + destruct (p_cons s j) eqn:EC; [destruct (v_cons _ _ _ HI j EC); lia|]. rewrite !app_nil_r. destruct (word_ack W fields s i (plc A)).
        * rewrite evs_S, (proj2 (Nat.eqb_neq _ _) E), !app_nil_r. reflexivity.
        * rewrite app_nil_r. reflexivity.
  Qed.

  Lemma inv_run : forall is s A tk, Inv s A tk -> feeds src lst A (trace stp s is) ->
    Inv (final stp s is) (A + eaten (trace stp s is)) (fun j => tk j ++ taken j (trace stp s is)).
  Proof.
    induction is as [|i is IH]; intros s A tk HI HF.
    - cbn. rewrite Nat.add_0_r. destruct HI. constructor; auto. intros j Hn. rewrite app_nil_r. auto.
    - rewrite trace_cons in HF. rewrite trace_cons, final_cons. cbn [feeds fst snd] in HF. destruct HF as [H1 H2].
      pose proof (inv_step s A tk i HI H1) as HI'. specialize (IH _ _ _ HI' H2).
      unfold eaten, taken. cbn [filter flat_map fst snd]. unfold eaten, taken, add in IH. cbn [fst snd] in IH.
      destruct (i_v i && o_r (snd (stp s i))); [cbn [length]|].
      + replace (A + S (length (filter (fun c => i_v (fst c) && o_r (snd c)) (trace stp (fst (stp s i)) is)))) with (S A + length (filter (fun c => i_v (fst c) && o_r (snd c)) (trace stp (fst (stp s i)) is))) by lia.
        destruct IH. constructor; auto. intros j Hn. rewrite app_assoc. auto.
      + destruct IH. constructor; auto. intros j Hn. rewrite app_assoc. auto.
  Qed.
  Lemma init_cons : forall r0 j, p_cons (p_init fields r0) j = false.
  Proof. intros r0 j. unfold p_cons. cbn [p_init p_flags]. generalize (length fields). intros n. revert j. induction n as [|n IHn]; intros [|j]; cbn; try reflexivity. apply IHn. Qed.
  Lemma inv_init : forall r0, Inv (p_init fields r0) 0 (fun _ => []).
  Proof. intros r0. constructor; [reflexivity| | |]; [cbn; lia| |]; intros j; rewrite init_cons; [discriminate|reflexivity]. Qed.
End S.

Section T.
  Variables (W : nat) (fields : list fld) (OVF UNF : bool) (src : nat -> list bool) (lst : nat -> bool).
  Hypothesis HP : proper W fields.
  Let H1 : 1 <= W := proj1 HP.
  Let H2 : fields <> [] := proj1 (proj2 HP).
  Let H3 : forall f, In f fields -> 1 <= f_w f := proj2 (proj2 HP).
  Hypothesis Hsrc : forall k, length (src k) = W.
  Hypothesis Hal : OVF = true -> total fields mod W = 0.
  Hypothesis Hlong : OVF = false -> UNF = true -> forall k, place (OVF || UNF) (nwords W fields) lst k = nwords W fields - 1 -> lst k = true.
  Notation stp := (p_step W fields OVF UNF).
  Notation due_ := (due W fields (OVF || UNF) lst).

  Lemma inv_all : forall r0 is, feeds src lst 0 (trace stp (p_init fields r0) is) ->
    Inv W fields OVF UNF src lst (final stp (p_init fields r0) is) (eaten (trace stp (p_init fields r0) is)) (fun j => taken j (trace stp (p_init fields r0) is)).
  Proof.
    intros r0 is HF. apply (inv_run W fields H1 H2 H3 OVF UNF src lst Hsrc Hal Hlong is (p_init fields r0) 0 (fun _ => [])); [|exact HF].
    apply inv_init; assumption.
  Qed.
  Lemma due_evs : forall j n, is_field fields j -> evs W fields OVF UNF lst j n = due_ j n.
  Proof. intros j n Hj. unfold evs, due. rewrite (last_word_eq W fields H1) by apply Hj. reflexivity. Qed.

  Lemma t_values : forall r0 is, let t := trace stp (p_init fields r0) is in feeds src lst 0 t -> forall j, is_field fields j ->
    exists x, (x = [] \/ x = [eaten t] /\ place (OVF || UNF) (nwords W fields) lst (eaten t) = ends_in W fields j) /\
              taken j t = map (value W fields src j) (due_ j (eaten t) ++ x).
  Proof.
    intros r0 is t HF j Hj. pose proof (inv_all r0 is HF) as HI. fold t in HI. exists (if p_cons (final stp (p_init fields r0) is) j then [eaten t] else []). split.
    - destruct (p_cons _ j) eqn:E; [right|left; reflexivity]. split; [reflexivity|]. destruct (v_cons _ _ _ _ _ _ _ _ _ HI j E) as (_ & Q & _). rewrite <- (last_word_eq W fields H1) by apply Hj. congruence.
    - pose proof (v_tk _ _ _ _ _ _ _ _ _ HI j (proj2 (named_iff W fields H1 j) Hj)) as Q. rewrite due_evs in Q by exact Hj. exact Q.
  Qed.
  Lemma taken_len : forall r0 is, let t := trace stp (p_init fields r0) is in feeds src lst 0 t -> forall j, is_field fields j ->
    length (taken j t) = length (due_ j (eaten t)) + if p_cons (final stp (p_init fields r0) is) j then 1 else 0.
  Proof.
    intros r0 is t HF j Hj. pose proof (inv_all r0 is HF) as HI. fold t in HI. pose proof (v_tk _ _ _ _ _ _ _ _ _ HI j (proj2 (named_iff W fields H1 j) Hj)) as Q. cbn beta in Q. rewrite due_evs in Q by exact Hj.
    rewrite Q, map_length, app_length. destruct (p_cons _ j); reflexivity.
  Qed.
  Lemma feeds_app : forall t n u, feeds src lst n (t ++ u) -> feeds src lst n t /\ feeds src lst (n + eaten t) u.
  Proof.
    induction t as [|c t IH]; intros n u H; [cbn in *; rewrite Nat.add_0_r; auto|]. cbn [app feeds] in H. destruct H as [G1 G2]. apply IH in G2. destruct G2 as [G2 G3].
    split; [split; assumption|]. unfold eaten in *. cbn [filter]. destruct (i_v (fst c) && o_r (snd c)); cbn [length]; [rewrite Nat.add_succ_r; exact G3|exact G3].
  Qed.
  Lemma t_offer : forall r0 is i, let t := trace stp (p_init fields r0) is in let o := snd (stp (final stp (p_init fields r0) is) i) in
    feeds src lst 0 (t ++ [(i, o)]) -> i_v i = true -> forall j, is_field fields j -> 
    (o_v o j = true <-> place (OVF || UNF) (nwords W fields) lst (eaten t) = ends_in W fields j /\ length (taken j t) = length (due_ j (eaten t))).
  Proof.
    intros r0 is i t o HF HV j Hj. apply feeds_app in HF. destruct HF as [HF _]. pose proof (inv_all r0 is HF) as HI. fold t in HI. 
    pose proof (taken_len r0 is HF j Hj) as HL. fold t in HL. rewrite HL. pose proof (proj2 (named_iff W fields H1 j) Hj) as Hn. unfold o. rewrite (out_v W fields H1 H2 H3 OVF UNF src lst Hsrc Hal Hlong _ _ _ i j HI Hn), HV, Bool.andb_true_r, Bool.andb_true_iff, Nat.eqb_eq.
    rewrite (last_word_eq W fields H1) by apply Hj. destruct (p_cons _ j); cbn [negb]; intuition (try discriminate; try lia).
  Qed.
  Lemma t_accept : forall r0 is i, let t := trace stp (p_init fields r0) is in let o := snd (stp (final stp (p_init fields r0) is) i) in
    feeds src lst 0 (t ++ [(i, o)]) -> i_v i = true ->
    (o_r o = true <-> forall j, is_field fields j -> place (OVF || UNF) (nwords W fields) lst (eaten t) = ends_in W fields j -> length (taken j (t ++ [(i, o)])) = S (length (due_ j (eaten t)))).
  Proof.
    intros r0 is i t o HF HV. pose proof HF as HF0. apply feeds_app in HF. destruct HF as [HF _]. pose proof (inv_all r0 is HF) as HI. fold t in HI. 
    unfold o at 1. rewrite (out_r' W fields H1 H2 H3 OVF UNF src lst Hsrc Hal Hlong _ _ _ i HI). unfold word_ack. rewrite forallb_forall.
    assert (X : forall j, is_field fields j -> place (OVF || UNF) (nwords W fields) lst (eaten t) = ends_in W fields j ->
      (node_ack W fields (final stp (p_init fields r0) is) i (place (OVF || UNF) (nwords W fields) lst (eaten t)) j = true <-> length (taken j (t ++ [(i, o)])) = S (length (due_ j (eaten t))))).
    { intros j Hj He. unfold taken. rewrite flat_map_app, app_length. fold (taken j t). cbn [flat_map fst snd]. rewrite app_nil_r.
      pose proof (taken_len r0 is HF j Hj) as HL. fold t in HL. rewrite HL. pose proof (proj2 (named_iff W fields H1 j) Hj) as Hn.
      assert (OV : o_v o j = negb (p_cons (final stp (p_init fields r0) is) j)).
      { unfold o. rewrite (out_v W fields H1 H2 H3 OVF UNF src lst Hsrc Hal Hlong _ _ _ i j HI Hn), HV, Bool.andb_true_r. rewrite (last_word_eq W fields H1) by apply Hj. rewrite He, Nat.eqb_refl. reflexivity. }
      rewrite OV. unfold node_ack. destruct (p_cons (final stp (p_init fields r0) is) j) eqn:EC.
      - destruct (v_cons _ _ _ _ _ _ _ _ _ HI j EC) as (_ & _ & F). rewrite F. cbn. rewrite Bool.orb_true_r. split; [intros _; lia|reflexivity].
      - rewrite Bool.andb_false_r, Bool.orb_false_r. cbn [negb andb]. destruct (i_frd i j); cbn; split; intros; try lia; try reflexivity; discriminate. }
    split.
    - intros H j Hj He. apply (X j Hj He). apply H. apply (nodes_iff W fields H1). split; [apply (named_iff W fields H1); exact Hj|]. rewrite (last_word_eq W fields H1) by apply Hj. auto.
    - intros H j Hj. apply (nodes_iff W fields H1) in Hj. destruct Hj as [Hj He]. apply (named_iff W fields H1) in Hj. rewrite (last_word_eq W fields H1) in He by apply Hj. apply (X j Hj (eq_sym He)). apply H; auto.
  Qed.
  Lemma t_overflow : forall r0 is i, let t := trace stp (p_init fields r0) is in let o := snd (stp (final stp (p_init fields r0) is) i) in
    OVF = true -> feeds src lst 0 t -> (o_ovf o = true <-> place true (nwords W fields) lst (eaten t) = nwords W fields).
  Proof.
    intros r0 is i t o HO HF. pose proof (inv_all r0 is HF) as HI. fold t in HI. unfold o. cbn [p_step snd o_ovf].
    rewrite (v_wi _ _ _ _ _ _ _ _ _ HI). rewrite (ovf_eq W fields H1 H2 H3 OVF UNF lst Hal Hlong). rewrite HO. cbn [andb orb]. apply Nat.eqb_eq.
  Qed.
  Lemma t_underflow : forall r0 is i, let t := trace stp (p_init fields r0) is in let o := snd (stp (final stp (p_init fields r0) is) i) in
    OVF = false -> UNF = true -> feeds src lst 0 (t ++ [(i, o)]) -> (o_unf o = true <-> i_v i = true /\ o_r o = true /\ lst (eaten t) = true /\ place true (nwords W fields) lst (eaten t) < nwords W fields - 1).
  Proof.
    intros r0 is i t o HO HU HF. pose proof HF as HF0. apply feeds_app in HF. destruct HF as [HF HF1]. cbn [feeds fst snd] in HF1. destruct HF1 as [HF1 _]. pose proof (inv_all r0 is HF) as HI. fold t in HI. 
    pose proof (plc_le W fields H1 H2 H3 OVF UNF src lst Hsrc Hal Hlong (eaten t)) as HB. pose proof (nwords_eq W fields H1 H2 H3) as EN.
    assert (E : o_unf o = UNF && (i_v i && o_r o && i_l i && (if aligned W fields then negb (p_wi (final stp (p_init fields r0) is) =? max_word W fields) else p_wi (final stp (p_init fields r0) is) <? max_word W fields))) by reflexivity.
    rewrite E, (v_wi _ _ _ _ _ _ _ _ _ HI). rewrite HO, HU in *. cbn [andb orb] in *. rewrite Nat.add_0_l in HF1.
    assert (Q : (if aligned W fields then negb (place true (nwords W fields) lst (eaten t) =? max_word W fields) else place true (nwords W fields) lst (eaten t) <? max_word W fields) = (place true (nwords W fields) lst (eaten t) <? nwords W fields - 1)).
    { rewrite EN in *. replace (max_word W fields + 1 - 1) with (max_word W fields) by lia. destruct (aligned W fields); [|reflexivity]. destruct (Nat.eqb_spec (place true (max_word W fields + 1) lst (eaten t)) (max_word W fields)) as [Z|Z]; cbn [negb]; symmetry; [apply Nat.ltb_ge|apply Nat.ltb_lt]; lia. }
    rewrite Q, !Bool.andb_true_iff, Nat.ltb_lt. split.
    - intros [[[A1 A2] A3] A4]. destruct (HF1 A1) as [_ HL]. rewrite <- HL. auto.
    - intros (A1 & A2 & A3 & A4). destruct (HF1 A1) as [_ HL]. rewrite HL. auto.
  Qed.
End T.

(** * frames of constant size *)
Section C.
  Variables (W : nat) (fields : list fld) (src : nat -> list bool) (lst : nat -> bool).
  Hypothesis HP : proper W fields.
  Let H1 : 1 <= W := proj1 HP.
  Let H2 : fields <> [] := proj1 (proj2 HP).
  Let H3 : forall f, In f fields -> 1 <= f_w f := proj2 (proj2 HP).
  Hypothesis Hsrc : forall k, length (src k) = W.
  Lemma N_pos : 1 <= nwords W fields.
  Proof. rewrite (nwords_eq W fields H1 H2 H3). lia. Qed.
  Lemma place_mod : forall N k, 1 <= N -> place false N lst k = k mod N.
  Proof.
    intros N k HN. induction k as [|k IH]; [cbn; symmetry; apply Nat.mod_0_l; lia|]. cbn [place]. rewrite IH. clear IH. pose proof (Nat.div_mod k N ltac:(lia)) as D. pose proof (Nat.mod_upper_bound k N ltac:(lia)) as B.
    destruct (Nat.eqb_spec (k mod N) (N - 1)) as [E|E].
    - apply (Nat.mod_unique (S k) N (k / N + 1) 0); lia.
    - apply (Nat.mod_unique (S k) N (k / N)); lia.
  Qed.
  Lemma due_mod : forall N e A, e < N -> exists m, filter (fun k => k mod N =? e) (seq 0 A) = map (fun n => n * N + e) (seq 0 m) /\ forall n, n < m <-> n * N + e < A.
  Proof.
    intros N e A He. induction A as [|A (m & E & H)]; [exists 0; split; [reflexivity|intros; lia]|]. rewrite seq_S, filter_app, E. cbn [filter]. rewrite Nat.add_0_l.
    pose proof (Nat.div_mod A N ltac:(lia)) as D. destruct (Nat.eqb_spec (A mod N) e) as [Q|Q].
    - rewrite Q in D. exists (S m). assert (M : m = A / N).
      { pose proof (H (A / N)) as P1. pose proof (H (A / N - 1)) as P2. destruct (A / N) as [|q]; [lia|]. replace (S q - 1) with q in P2 by lia. nia. }
      split; [rewrite seq_S, map_app; cbn [map]; f_equal; f_equal; rewrite M; lia|]. intros n. rewrite Nat.lt_succ_r. split; intros G; [rewrite M in G; nia|]. rewrite M. nia.
    - exists m. rewrite app_nil_r. split; [reflexivity|]. intros n. rewrite H. split; intros G; [lia|]. assert (n * N + e <> A); [|lia]. intros Z. apply Q. symmetry. apply (Nat.mod_unique A N n); lia.
  Qed.
  Lemma bits_app : forall a n l r, a + n <= length l -> bits a n (l ++ r) = bits a n l.
  Proof. intros a n l r H. unfold bits. rewrite skipn_app, firstn_app, skipn_length. replace (n - (length l - a)) with 0 by lia. cbn. rewrite app_nil_r. reflexivity. Qed.
  Lemma value_frame : forall j n, is_field fields j -> value W fields src j (n * nwords W fields + ends_in W fields j) = bits (offset fields j) (width fields j) (frame src (nwords W fields) n).
  Proof.
    intros j n Hj. unfold value, frame. set (e := ends_in W fields j). assert (He : e < nwords W fields).
    { rewrite (nwords_eq W fields H1 H2 H3). pose proof (last_le W fields H1 j (proj1 Hj)) as Q. rewrite (last_word_eq W fields H1) in Q by apply Hj. fold e in Q. lia. }
    replace (n * nwords W fields + e - e) with (n * nwords W fields) by lia. replace (nwords W fields) with (S e + (nwords W fields - S e)) at 3 by lia. rewrite seq_app, map_app, concat_app. symmetry. apply bits_app.
    rewrite (concat_len W H1 src Hsrc). unfold e, ends_in. pose proof (Nat.div_mod (offset fields j + width fields j - 1) W ltac:(lia)) as D. pose proof (Nat.mod_upper_bound (offset fields j + width fields j - 1) W ltac:(lia)). pose proof (width_pos fields H3 j (proj1 Hj)). nia.
  Qed.
  Lemma t_frames : forall r0 is, let N := nwords W fields in let t := trace (p_step W fields false false) (p_init fields r0) is in feeds src lst 0 t -> forall j, is_field fields j ->
    taken j t = map (fun n => bits (offset fields j) (width fields j) (frame src N n)) (seq 0 (length (taken j t))) /\
    (forall n, n * N + ends_in W fields j < eaten t -> n < length (taken j t)) /\ (forall n, n < length (taken j t) -> n * N + ends_in W fields j <= eaten t).
  Proof.
    intros r0 is N t HF j Hj. destruct (t_values W fields false false src lst HP Hsrc ltac:(discriminate) ltac:(discriminate) r0 is HF j Hj) as (x & Hx & E). fold t in Hx, E.
    assert (He : ends_in W fields j < N).
    { unfold N. rewrite (nwords_eq W fields H1 H2 H3). pose proof (last_le W fields H1 j (proj1 Hj)) as Q. rewrite (last_word_eq W fields H1) in Q by apply Hj. lia. }
    destruct (due_mod N (ends_in W fields j) (eaten t) He) as (m & Em & Hm).
    assert (ED : due W fields (false || false) lst j (eaten t) = map (fun n => n * N + ends_in W fields j) (seq 0 m)).
    { rewrite <- Em. unfold due. apply filter_ext. intros k. cbn [orb]. fold N. rewrite place_mod by apply N_pos. reflexivity. }
    rewrite ED in E. cbn [orb] in Hx. fold N in Hx. rewrite place_mod in Hx by apply N_pos.
    assert (V : forall l, map (value W fields src j) (map (fun n => n * N + ends_in W fields j) l) = map (fun n => bits (offset fields j) (width fields j) (frame src N n)) l).
    { intros l. rewrite map_map. apply map_ext. intros n. apply value_frame. exact Hj. }
    destruct Hx as [->|[-> Hx]].
    - rewrite app_nil_r, V in E. assert (EL : length (taken j t) = m) by (rewrite E, map_length, seq_length; reflexivity). rewrite EL. split; [exact E|]. split; intros n G; apply Hm in G; lia.
    - assert (Q : eaten t = m * N + ends_in W fields j).
      { pose proof (Nat.div_mod (eaten t) N ltac:(lia)) as D. rewrite Hx in D. assert (M : m = eaten t / N); [|rewrite M; lia].
        pose proof (Hm (eaten t / N)) as P1. pose proof (Hm (eaten t / N - 1)) as P2. destruct (eaten t / N) as [|q]; [lia|]. replace (S q - 1) with q in P2 by lia. nia. }
      assert (E2 : taken j t = map (fun n => bits (offset fields j) (width fields j) (frame src N n)) (seq 0 (S m))).
      { rewrite E, map_app, V, seq_S, map_app. cbn [map]. rewrite Q at 1. unfold N. rewrite value_frame by exact Hj. reflexivity. }
      assert (EL : length (taken j t) = S m) by (rewrite E2, map_length, seq_length; reflexivity). rewrite EL. split; [exact E2|]. split; intros n G.
      + apply Hm in G. lia.
      + assert (n * N <= m * N) by (apply Nat.mul_le_mono_r; lia). lia.
  Qed.
End C.
