From Verif Require Import Base BaseFacts AssModel AssSpec.

Section P.
  Context {A : Type}.
  Implicit Types (t : list (asi A * aso A)) (ws : list (A * bool)).
  Lemma taken_app : forall t u, taken (t ++ u) = taken t ++ taken u.
  Proof. induction t as [|(i, o) t IH]; intros u; [reflexivity|]. cbn [app taken]. rewrite IH. destruct (s_in i); [destruct (o_in o)|]; reflexivity. Qed.
  Lemma given_app : forall k t u, given k (t ++ u) = given k t ++ given k u.
  Proof. intros k. induction t as [|(i, o) t IH]; intros u; [reflexivity|]. cbn [app given]. rewrite IH. destruct (o_out o k); reflexivity. Qed.
  Lemma selects_app : forall t u, selects (t ++ u) = selects t ++ selects u.
  Proof. induction t as [|(i, o) t IH]; intros u; [reflexivity|]. cbn [app selects]. rewrite IH. destruct (s_sel i); [destruct (o_sel o)|]; reflexivity. Qed.

  Lemma route_more : forall ws ss x, length (route ss ws) = length ws -> route (ss ++ x) ws = route ss ws /\ remain (ss ++ x) ws = remain ss ws ++ x.
  Proof.
    induction ws as [|w ws IH]; intros ss x H; [destruct ss; cbn; auto|].
    destruct ss as [|j ss]; cbn [route remain app length] in *; [discriminate|]. injection H as H. destruct (snd w).
    - destruct (IH ss x H) as (E1 & E2). rewrite E1, E2. auto.
    - destruct (IH (j :: ss) x H) as (E1 & E2). cbn [app] in E1, E2. rewrite E1, E2. auto.
  Qed.
  Lemma route_snoc : forall ws ss w j r, length (route ss ws) = length ws -> remain ss ws = j :: r ->
    route ss (ws ++ [w]) = route ss ws ++ [(j, w)] /\ remain ss (ws ++ [w]) = if snd w then r else j :: r.
  Proof.
    induction ws as [|v ws IH]; intros ss w j r H R.
    - destruct ss; cbn in R; [discriminate|]. injection R as -> ->. cbn [app route remain]. destruct (snd w); [destruct r|]; auto.
    - destruct ss as [|i ss]; cbn [route remain app length] in *; [discriminate|]. injection H as H. destruct (IH _ w j r H R) as (E1 & E2). rewrite E1, E2. auto.
  Qed.
  Lemma routed_snoc : forall k (l : list (nat * (A * bool))) j w, routed_to k (l ++ [(j, w)]) = routed_to k l ++ if j =? k then [w] else [].
  Proof. intros k l j w. unfold routed_to. rewrite filter_app, map_app. cbn [filter fst]. destruct (j =? k); reflexivity. Qed.
  Lemma first_seq : forall n b j, j < n -> first_set (map (fun k => k =? b + j) (seq b n)) = Some j.
  Proof.
    induction n as [|n IH]; intros b j H; [lia|]. cbn [seq map first_set]. destruct (Nat.eqb_spec b (b + j)).
    - f_equal. lia.
    - destruct j as [|j]; [lia|]. replace (b + S j) with (S b + j) by lia. rewrite (IH (S b) j) by lia. reflexivity.
  Qed.
  Lemma first_hot : forall n j, j < n -> first_set (one_hot n j) = Some j.
  Proof. intros n j H. exact (first_seq n 0 j H). Qed.
  Lemma nth_hot : forall n j k, j < n -> nth k (one_hot n j) false = (j =? k).
  Proof.
    intros n j k H. unfold one_hot. destruct (Nat.lt_ge_cases k n) as [L|L].
    - rewrite (nth_indep _ false (0 =? j)) by (rewrite map_length, seq_length; exact L). rewrite (map_nth (fun k => k =? j)), seq_nth by exact L. apply Nat.eqb_sym.
    - rewrite nth_overflow by (rewrite map_length, seq_length; exact L). symmetry. apply Nat.eqb_neq. lia.
  Qed.

  Definition st_of (n : nat) (l : list nat) : option (list bool) := match l with [] => None | j :: _ => Some (one_hot n j) end.
  Definition ainv (n : nat) (s : option (list bool)) t : Prop :=
    exists ss, Forall (fun j => j < n) ss /\ selects t = map (one_hot n) ss /\ length (route ss (taken t)) = length (taken t) /\
    length (remain ss (taken t)) <= 1 /\ s = st_of n (remain ss (taken t)) /\ forall k, given k t = routed_to k (route ss (taken t)).
  Lemma remain_lt : forall n ws ss, Forall (fun j => j < n) ss -> Forall (fun j => j < n) (remain ss ws).
  Proof.
    intros n. induction ws as [|w ws IH]; intros ss H; [destruct ss; exact H|]. destruct ss as [|j ss]; [exact H|]. cbn [remain]. apply IH. destruct (snd w); [inversion H; assumption|exact H].
  Qed.
  Lemma ainv_step : forall n s t i, sel_ok n i -> ainv n s t -> ainv n (fst (as_step s i)) (t ++ [(i, snd (as_step s i))]).
  Proof.
    intros n s t [iw isel rd] Hs (ss & F & E1 & E2 & E3 & E4 & E5). unfold sel_ok in Hs. cbn [s_sel] in Hs.
    pose proof (remain_lt n (taken t) ss F) as Fr. unfold ainv. setoid_rewrite given_app. rewrite selects_app, taken_app, E1.
    destruct (remain ss (taken t)) as [|j r] eqn:R; cbn [st_of] in E4; subst s.
    - (* no select *)
      assert (T : taken [(mk_asi iw isel rd, snd (as_step None (mk_asi iw isel rd)))] = []).
      { cbn. rewrite andb_false_r. destruct iw; reflexivity. }
      assert (G : forall k, given k [(mk_asi iw isel rd, snd (as_step None (mk_asi iw isel rd)))] = []) by (intros k; reflexivity).
      rewrite T, app_nil_r. setoid_rewrite G. setoid_rewrite app_nil_r. destruct isel as [l|]; cbn.
      + destruct Hs as (j & Hj & ->). exists (ss ++ [j]). destruct (route_more _ _ [j] E2) as (M1 & M2). rewrite M1, M2, R.
        split; [apply Forall_app; auto|]. split; [rewrite map_app; reflexivity|]. cbn. auto 12.
      + exists ss. rewrite R, app_nil_r. cbn. auto 12.
    - (* select j *)
      assert (r = []) by (destruct r; [reflexivity|cbn in E3; lia]). subst r. apply Forall_inv in Fr. unfold as_step. cbn [s_in s_sel s_rd fst snd]. rewrite (first_hot n j Fr).
      destruct iw as [w|].
      2:{ (* no word *)
        rewrite andb_false_r. cbn [andb]. exists ss. cbn [taken given selects s_in s_sel o_in o_out o_sel andb]. rewrite app_nil_r, R.
        replace (rd j && false && false) with false by (rewrite !andb_false_r; reflexivity).
        destruct isel; cbn [st_of]; rewrite app_nil_r; (split; [exact F|]); (split; [reflexivity|]); (split; [exact E2|]); (split; [exact E3|]); (split; [reflexivity|]); intros k; rewrite app_nil_r; apply E5. }
      rewrite andb_true_r. cbn [andb]. cbn [taken given selects s_in s_sel o_in o_out o_sel].
      destruct (rd j) eqn:Rj.
      + (* the word is taken *)
        cbn [andb]. destruct (route_snoc _ _ w j [] E2 R) as (N1 & N2).
        assert (L : length (route ss (taken t ++ [w])) = length (taken t ++ [w])) by (rewrite N1, !app_length, E2; reflexivity).
        assert (G : forall k, given k t ++ match (if nth k (one_hot n j) false && rd k then Some w else None) with Some v => [v] | None => [] end = routed_to k (route ss (taken t ++ [w]))).
        { intros k. rewrite N1, routed_snoc, <- E5, (nth_hot n j k Fr). f_equal. destruct (Nat.eqb_spec j k) as [->|]; [rewrite Rj|]; reflexivity. }
        destruct isel as [l|].
        * destruct (snd w) eqn:Lw.
          -- destruct Hs as (j' & Hj & ->). exists (ss ++ [j']). destruct (route_more _ _ [j'] L) as (M1 & M2). rewrite M1, M2, N2.
             split; [apply Forall_app; auto|]. split; [rewrite map_app; reflexivity|]. cbn. auto 12.
          -- exists ss. rewrite N2, app_nil_r. cbn. auto 12.
        * exists ss. rewrite N2, app_nil_r. destruct (snd w); cbn; auto 12.
      + (* the output is not ready *)
        cbn [andb].
        assert (G : forall k, given k t ++ match (if nth k (one_hot n j) false && rd k then Some w else None) with Some v => [v] | None => [] end = routed_to k (route ss (taken t))).
        { intros k. rewrite <- E5, (nth_hot n j k Fr). destruct (Nat.eqb_spec j k) as [->|]; [rewrite Rj|]; cbn [andb]; apply app_nil_r. }
        exists ss. rewrite (app_nil_r (taken t)), R. destruct isel; cbn [st_of]; rewrite app_nil_r; auto 12.
  Qed.
  Lemma ainv_run : forall n (ins : list (asi A)), Forall (sel_ok n) ins -> ainv n (final as_step None ins) (trace as_step None ins).
  Proof.
    intros n ins. induction ins as [|i ins IH] using rev_ind; intros H.
    - exists []. cbn. auto 12.
    - apply Forall_app in H. destruct H as (H & Hi). apply Forall_inv in Hi. rewrite final_snoc, trace_snoc. apply ainv_step; auto.
  Qed.
  Lemma routes : forall n (ins : list (asi A)), Forall (sel_ok n) ins -> let t := trace as_step None ins in
    exists ss, selects t = map (one_hot n) ss /\ length (route ss (taken t)) = length (taken t) /\ length (remain ss (taken t)) <= 1 /\
    forall k, given k t = routed_to k (route ss (taken t)).
  Proof. intros n ins H. cbv zeta. destruct (ainv_run n ins H) as (ss & _ & E1 & E2 & E3 & _ & E5). exists ss. auto. Qed.
  (** the clocks of transfers *)
  Lemma clocks : forall n (ins : list (asi A)) (i : asi A), Forall (sel_ok n) ins -> let t := trace as_step None ins in let o := snd (as_step (final as_step None ins) i) in
    exists ss, selects t = map (one_hot n) ss /\
    (o_in o = true <-> exists w j, s_in i = Some w /\ hd_error (remain ss (taken t)) = Some j /\ s_rd i j = true) /\
    (o_sel o = true <-> s_sel i <> None /\ (remain ss (taken t) = [] \/ exists w, s_in i = Some w /\ snd w = true /\ o_in o = true)).
  Proof.
    intros n ins i H. cbv zeta. destruct (ainv_run n ins H) as (ss & F & E1 & E2 & E3 & E4 & _). exists ss. split; [exact E1|]. rewrite E4.
    pose proof (remain_lt n (taken (trace as_step None ins)) ss F) as Fr. destruct (remain ss (taken (trace as_step None ins))) as [|j r]; cbn [st_of].
    - destruct i as [iw isel rd]. cbn. rewrite andb_false_r. split; split; try discriminate.
      + intros (w & j & _ & X & _). discriminate X.
      + destruct isel; [|discriminate]. split; [discriminate|auto].
      + intros (X & _). destruct isel; [reflexivity|congruence].
    - apply Forall_inv in Fr. destruct i as [iw isel rd]. unfold as_step. cbn [s_in s_sel s_rd snd o_in o_sel hd_error]. rewrite (first_hot n j Fr). split; split.
      + intros X. apply andb_prop in X. destruct X as (X & Y). destruct iw as [w|]; [|discriminate]. exists w, j. auto.
      + intros (w & j' & -> & [= <-] & ->). reflexivity.
      + destruct isel; [|discriminate]. intros X. split; [discriminate|]. right. destruct iw as [w|]; [|rewrite andb_false_r in X; discriminate].
        exists w. rewrite andb_true_r in X. apply andb_prop in X. destruct X as (-> & ->). auto.
      + intros (X & [Y|(w & -> & Lw & Y)]); [discriminate Y|]. destruct isel; [|congruence]. rewrite Lw. cbn [andb] in Y. rewrite Y. reflexivity.
  Qed.
End P.
