From Verif Require Import Base BaseFacts RamXorModel RamXorSpec RamXorProofs LruaModel LruaSpec.

(** * C34 for histories of any length *)
Definition quiet_cycle (ar : nat -> nat) (dr : nat -> N) : x_in :=
  mk_xi (fun k => mk_xw false (ar k) (dr k)) (fun _ => mk_xr false 0).

Lemma x_init_eq_quiet W wd rd ar dr : fst (x_step W (x_init wd rd ar dr) (quiet_cycle ar dr)) = x_init wd rd ar dr.
Proof. reflexivity. Qed.

Lemma quiet_content W ar dr h a : x_content W (quiet_cycle ar dr :: h) a = x_content W h a.
Proof.
  unfold x_content. cbn [fold_left]. f_equal. unfold mem_after.
  destruct (find _ _) as [k|] eqn:E; [|reflexivity].
  apply find_some in E. destruct E as [_ E]. discriminate E.
Qed.

Lemma quiet_disc W ar dr h : disciplined W h -> disciplined W (quiet_cycle ar dr :: h).
Proof.
  intros H. cbn. split; [|split; [|exact H]].
  - intros k j a [_ [X _]]. discriminate X.
  - destruct h; [exact I|]. intros k j a [_ [X _]]. discriminate X.
Qed.

Lemma c34_any W wd rd ar dr h c c2 r a :
  disciplined W (h ++ [c]) -> xr_en (xi_r c r) = true -> xr_addr (xi_r c r) = a -> xr_addr (xi_r c2 r) = a ->
  (forall h' p, h = h' ++ [p] -> forall k, ~ x_writes W p k a) ->
  x_dout W (final (x_step W) (x_init wd rd ar dr) (h ++ [c])) c2 r = x_content W (h ++ [c]) a.
Proof.
  intros HD He Ha Ha2 HN.
  set (q := quiet_cycle ar dr).
  assert (E : exists h' p, q :: h = h' ++ [p] /\ forall k, ~ x_writes W p k a).
  { destruct h as [|x h0] using rev_ind.
    - exists [], q. split; [reflexivity|]. intros k [_ [X _]]. discriminate X.
    - exists (q :: h0), x. split; [reflexivity|]. apply (HN h0 x eq_refl). }
  destruct E as [h' [p [E HP]]].
  pose proof (c34 W wd rd ar dr h' p c c2 r a) as T. cbv zeta in T.
  replace (h' ++ [p; c]) with (q :: h ++ [c]) in T
    by (change (h' ++ [p; c]) with (h' ++ [p] ++ [c]); rewrite app_assoc, <- E; reflexivity).
  specialize (T (quiet_disc W ar dr _ HD) He Ha HP). destruct T as [T _]. specialize (T Ha2).
  unfold q in T. rewrite quiet_content in T. rewrite final_cons, x_init_eq_quiet in T. exact T.
Qed.

Lemma content_snoc W h c a : x_content W (h ++ [c]) a = mem_after W c a (x_content W h a).
Proof. unfold x_content. rewrite fold_left_app. reflexivity. Qed.

Lemma disc_snoc2 W h c c' : disciplined W (h ++ [c]) -> no_clash W c' -> no_clash2 W c c' -> disciplined W ((h ++ [c]) ++ [c']).
Proof.
  induction h as [|x h IH]; intros HD H1 H2.
  - cbn in *. split; [apply HD|]. split; [exact H2|]. split; [exact H1|]. split; exact I.
  - cbn [app] in *. cbn [disciplined] in HD |- *. destruct HD as [A [B C]]. split; [exact A|]. split.
    + destruct h; cbn [app] in *; exact B.
    + apply IH; assumption.
Qed.

Lemma mem_after_unique W c a v k : k < W -> x_writes W c k a -> (forall j, x_writes W c j a -> j = k) -> mem_after W c a v = xw_din (xi_w c k).
Proof.
  intros Hk H HU. unfold mem_after. destruct (find _ _) as [j|] eqn:E.
  - apply find_some in E. destruct E as [E1 E2]. apply in_seq in E1. apply andb_true_iff in E2. destruct E2 as [E2 E3].
    apply Nat.eqb_eq in E3. rewrite (HU j); [reflexivity|]. split; [lia|]. split; assumption.
  - exfalso. pose proof (find_none _ _ E k) as X. destruct H as [_ [H1 H2]]. cbn beta in X. rewrite H1, H2, Nat.eqb_refl in X.
    assert (I : In k (seq 0 W)) by (apply in_seq; lia). specialize (X I). discriminate X.
Qed.

Lemma mem_after_none W c a v : (forall k, ~ x_writes W c k a) -> mem_after W c a v = v.
Proof.
  intros H. unfold mem_after. destruct (find _ _) as [j|] eqn:E; [|reflexivity].
  exfalso. apply find_some in E. destruct E as [E1 E2]. apply in_seq in E1. apply andb_true_iff in E2. destruct E2 as [E2 E3].
  apply Nat.eqb_eq in E3. apply (H j). split; [lia|]. split; assumption.
Qed.

Section P.
  Variable n : nat.
  Variable mark : N -> N -> N.
  Variable lru : N -> nat.
  Notation W := (S n).
  Notation step := (l_step n mark lru).
  Variables (x0 : nat) (ix0 : nat -> nat) (wd rd : nat -> nat -> N) (ar : nat -> nat) (dr : nat -> N).
  Notation init := (l_init x0 ix0 wd rd ar dr).
  Notation st h := (final step init h).

  (** inputs of the memory in a history *)
  Fixpoint ports (s : l_st) (h : list l_in) : list x_in :=
    match h with [] => [] | c :: h' => l_ports n mark lru s c :: ports (fst (step s c)) h' end.

  Lemma ports_snoc h : forall s c, ports s (h ++ [c]) = ports s h ++ [l_ports n mark lru (final step s h) c].
  Proof.
    induction h as [|x h IH]; intros s c; [reflexivity|]. cbn [app ports]. rewrite IH, final_cons. reflexivity.
  Qed.

  Lemma ram_final h : l_ram (st h) = final (x_step W) (x_init wd rd ar dr) (ports init h).
  Proof.
    induction h as [|c h IH] using rev_ind; [reflexivity|].
    rewrite ports_snoc, !final_snoc, <- IH. reflexivity.
  Qed.

  (** ** spacing of prefixes *)
  Definition good (h : list l_in) : Prop := spaced n h /\ held n h /\ taken_at_once h.

  Lemma nth_pre {A} (h : list A) c i x : nth_error h i = Some x -> nth_error (h ++ [c]) i = Some x.
  Proof. intros H. rewrite nth_error_app1; [exact H|]. apply nth_error_Some. rewrite H. discriminate. Qed.

  Lemma good_pre h c : good (h ++ [c]) -> good h.
  Proof.
    intros [B [C D]]. split; [|split].
    - intros i j x y a Hx Hy. apply (B i j); apply nth_pre; assumption.
    - intros i x y k a Hx Hy. apply (C i); apply nth_pre; assumption.
    - intros x Hx. apply D. apply in_or_app. left. exact Hx.
  Qed.

  Lemma nth_last {A} (h : list A) c : nth_error (h ++ [c]) (length h) = Some c.
  Proof. rewrite nth_error_app2 by lia. rewrite Nat.sub_diag. reflexivity. Qed.

  Lemma nth_last2 {A} (h : list A) c d : nth_error ((h ++ [c]) ++ [d]) (S (length h)) = Some d.
  Proof. replace (S (length h)) with (length (h ++ [c])) by (rewrite app_length; cbn; lia). apply nth_last. Qed.
  Lemma nth_last3 {A} (h : list A) c d e : nth_error (((h ++ [c]) ++ [d]) ++ [e]) (S (S (length h))) = Some e.
  Proof. replace (S (S (length h))) with (length ((h ++ [c]) ++ [d])) by (rewrite !app_length; cbn; lia). apply nth_last. Qed.

  Lemma good_held h c c' k a : good ((h ++ [c]) ++ [c']) -> k <= n -> touch n c k a = true ->
    ln_set c' = false /\ match k with O => ln_req_addr c' = a
      | S j => li_index (ln_incr c' j) = a /\ li_way (ln_incr c' j) = li_way (ln_incr c j) end.
  Proof.
    intros [_ [C _]] Hk Ht. apply (C (length h) c c' k a); [apply nth_pre, nth_last|apply nth_last2|exact Hk|exact Ht].
  Qed.
  Lemma good_dist1 h c c' a : good ((h ++ [c]) ++ [c']) -> uses n c a -> uses n c' a -> False.
  Proof.
    intros [B _]. apply (B (length h) (S (length h))); [apply nth_pre, nth_last|apply nth_last2|lia].
  Qed.
  Lemma good_dist2 h c c' c'' a : good (((h ++ [c]) ++ [c']) ++ [c'']) -> uses n c a -> uses n c'' a -> False.
  Proof.
    intros [B _]. apply (B (length h) (S (S (length h)))); [do 2 apply nth_pre; apply nth_last|apply nth_last3|lia].
  Qed.
  (** the first port which accesses the index *)
  Definition first (c : l_in) (k a : nat) : Prop := touch n c k a = true /\ forall j, j < k -> touch n c j a = false.
  Lemma first_unique c k j a : first c k a -> first c j a -> k = j.
  Proof.
    intros [A B] [C D]. destruct (Nat.lt_trichotomy k j) as [H|[H|H]]; [|exact H|].
    - rewrite D in A by exact H. discriminate.
    - rewrite B in C by exact H. discriminate.
  Qed.

  (** ** registers after a cycle *)
  Lemma it_after h c k a : k < n -> l_ivld (st (h ++ [c])) k && (l_iindex (st (h ++ [c])) k =? a) = touch n c (S k) a.
  Proof.
    intros Hk. rewrite final_snoc. cbn [l_step fst l_next l_ivld l_iindex]. unfold touch.
    replace (k <? n) with true by (symmetry; apply Nat.ltb_lt; exact Hk).
    destruct (li_vld (ln_incr c k)), (ln_set c), (li_index (ln_incr c k) =? a); reflexivity.
  Qed.
  Lemma vt_after h c a : good (h ++ [c]) -> l_vld (st (h ++ [c])) && (l_index (st (h ++ [c])) =? a) = touch n c 0 a.
  Proof.
    revert c a. induction h as [|b h IH] using rev_ind; intros c a HG.
    - cbn. unfold touch, l_load. cbn. destruct (ln_set c); reflexivity.
    - specialize (IH b). pose proof (good_pre _ _ HG) as HG'.
      rewrite final_snoc. cbn [l_step fst l_next l_vld l_index]. unfold l_load.
      assert (R : ln_rd c = true) by (apply HG; apply in_or_app; right; left; reflexivity).
      rewrite R, orb_true_r, andb_true_l. unfold touch. destruct (ln_set c) eqn:Es; cbn [negb andb]; [|reflexivity].
      destruct (l_vld (st (h ++ [b]))) eqn:Ev; [|reflexivity].
      exfalso. specialize (IH (l_index (st (h ++ [b]))) HG'). rewrite ?Ev, Nat.eqb_refl in IH. symmetry in IH.
      destruct (good_held _ _ _ _ _ HG (Nat.le_0_l n) IH) as [X _]. rewrite Es in X. discriminate X.
  Qed.

  Lemma touch_le c k a : touch n c k a = true -> k <= n.
  Proof.
    unfold touch. destruct k; [lia|]. intros H. apply andb_true_iff in H. destruct H as [_ H].
    apply andb_true_iff in H. destruct H as [H _]. apply andb_true_iff in H. destruct H as [H _]. apply Nat.ltb_lt in H. lia.
  Qed.
  Lemma touch_uses c k a : touch n c k a = true -> uses n c a.
  Proof. intros H. right. exists k. split; [eapply touch_le; eassumption|exact H]. Qed.

  (** ** writes of the memory ports *)
  Lemma prev_eq h c k a : good (h ++ [c]) -> touch n c (S k) a = true ->
    l_prev (st (h ++ [c])) k = existsb (fun j => touch n c j a) (seq 0 (S k)).
  Proof.
    intros HG Ht. pose proof (touch_le _ _ _ Ht) as Hk.
    pose proof (it_after h c k a ltac:(lia)) as E. rewrite Ht in E. apply andb_true_iff in E. destruct E as [_ E]. apply Nat.eqb_eq in E.
    unfold l_prev. rewrite E. rewrite vt_after by exact HG. cbn [seq existsb]. f_equal.
    rewrite <- seq_shift.
    assert (X : forall l, (forall j, In j l -> j < k) ->
      existsb (fun j => l_ivld (st (h ++ [c])) j && (l_iindex (st (h ++ [c])) j =? a)) l = existsb (fun j => touch n c j a) (map S l)).
    { induction l as [|j l IH]; intros Hl; [reflexivity|]. cbn [existsb map]. rewrite it_after by (specialize (Hl j (or_introl eq_refl)); lia).
      rewrite IH; [reflexivity|]. intros q Hq. apply Hl. right. exact Hq. }
    apply X. intros j Hj. apply in_seq in Hj. lia.
  Qed.
  Lemma first_prev h c k a : good (h ++ [c]) -> touch n c (S k) a = true -> (l_prev (st (h ++ [c])) k = false <-> first c (S k) a).
  Proof.
    intros HG Ht. rewrite (prev_eq h c k a HG Ht). split.
    - intros E. split; [exact Ht|]. intros j Hj. destruct (touch n c j a) eqn:Ej; [|reflexivity].
      rewrite <- E. symmetry. apply existsb_exists. exists j. split; [apply in_seq; lia|exact Ej].
    - intros [_ H]. destruct (existsb _ _) eqn:E; [|reflexivity]. apply existsb_exists in E. destruct E as [j [Hj Ej]].
      apply in_seq in Hj. rewrite H in Ej by lia. discriminate.
  Qed.

  Lemma writes_iff h c c' k a : good ((h ++ [c]) ++ [c']) ->
    (x_writes W (l_ports n mark lru (st (h ++ [c])) c') k a <->
     (k = 0 /\ ln_set c' = true /\ ln_set_addr c' = a) \/ first c k a).
  Proof.
    intros HG. pose proof (good_pre _ _ HG) as HG1. unfold x_writes. cbn [l_ports xi_w]. split.
    - intros [Hk [H1 H2]]. destruct k as [|k]; cbn [l_wports] in *.
      + unfold l_w0 in *. destruct (ln_set c') eqn:Es; cbn [xw_en xw_addr] in *; [left; auto|].
        right. split; [|lia]. rewrite <- (vt_after h c a HG1), H1, H2, Nat.eqb_refl. reflexivity.
      + right. unfold l_wk in *. cbn [xw_en xw_addr] in *. apply andb_true_iff in H1. destruct H1 as [H1 _].
        apply andb_true_iff in H1. destruct H1 as [H1 H3]. apply negb_true_iff in H3.
        eapply first_prev; [exact HG1| |exact H3].
        rewrite <- (it_after h c k a) by lia. rewrite H1, H2, Nat.eqb_refl. reflexivity.
    - intros [[-> [H1 H2]]|HF].
      + split; [lia|]. cbn [l_wports]. unfold l_w0. rewrite H1. cbn. auto.
      + pose proof (proj1 HF) as Ht. pose proof (touch_le _ _ _ Ht) as Hk. split; [lia|].
        destruct (good_held _ _ _ _ _ HG Hk Ht) as [Es _].
        destruct k as [|k]; cbn [l_wports].
        * unfold l_w0. rewrite Es. cbn [xw_en xw_addr]. pose proof (vt_after h c a HG1) as E. rewrite Ht in E.
          apply andb_true_iff in E. destruct E as [E1 E2]. apply Nat.eqb_eq in E2. auto.
        * unfold l_wk. rewrite Es. cbn [xw_en xw_addr]. pose proof (it_after h c k a ltac:(lia)) as E. rewrite Ht in E.
          apply andb_true_iff in E. destruct E as [E1 E2]. apply Nat.eqb_eq in E2.
          rewrite (proj2 (first_prev h c k a HG1 Ht) HF), E1. auto.
  Qed.

  Lemma writes_first c k a : x_writes W (l_ports n mark lru init c) k a <-> (k = 0 /\ ln_set c = true /\ ln_set_addr c = a).
  Proof.
    unfold x_writes. cbn [l_ports xi_w]. split.
    - intros [Hk [H1 H2]]. destruct k as [|k]; cbn [l_wports] in *.
      + unfold l_w0 in *. destruct (ln_set c) eqn:Es; cbn [xw_en xw_addr l_init l_vld] in *; [auto|discriminate].
      + unfold l_wk in *. cbn [xw_en l_init l_ivld andb] in *. discriminate.
    - intros [-> [H1 H2]]. split; [lia|]. cbn [l_wports]. unfold l_w0. rewrite H1. cbn. auto.
  Qed.

  Lemma set_uses c a : ln_set c = true -> ln_set_addr c = a -> uses n c a.
  Proof. intros. left. auto. Qed.

  Lemma set_touch c k a : ln_set c = true -> touch n c k a = false.
  Proof. intros H. unfold touch. rewrite H. reflexivity. Qed.

  Lemma clash_free h c c' : good ((h ++ [c]) ++ [c']) -> no_clash W (l_ports n mark lru (st (h ++ [c])) c').
  Proof.
    intros HG k j a Hk Hj. apply writes_iff in Hk; [|exact HG]. apply writes_iff in Hj; [|exact HG].
    destruct Hk as [[-> [S1 _]]|Tk], Hj as [[-> [S2 _]]|Tj]; [reflexivity| | |].
    - destruct Tj as [Tj _]. destruct (good_held _ _ _ _ _ HG (touch_le _ _ _ Tj) Tj) as [X _]. congruence.
    - destruct Tk as [Tk _]. destruct (good_held _ _ _ _ _ HG (touch_le _ _ _ Tk) Tk) as [X _]. congruence.
    - eapply first_unique; eassumption.
  Qed.

  Lemma ports_disc h : good h -> disciplined W (ports init h).
  Proof.
    induction h as [|c h IH] using rev_ind; intros HG; [exact I|].
    destruct h as [|b h] using rev_ind.
    - cbn. split; [|split; exact I]. intros k j a Hk Hj. apply (writes_first c) in Hk. apply (writes_first c) in Hj. lia.
    - clear IHh. specialize (IH (good_pre _ _ HG)). rewrite ports_snoc. rewrite ports_snoc in IH |- *.
      apply disc_snoc2; [exact IH|apply clash_free; exact HG|].
      intros k j a Hk Hj. apply writes_iff in Hj; [|exact HG].
      destruct h as [|d h] using rev_ind.
      + apply (writes_first b) in Hk. destruct Hk as [-> [S1 A1]].
        destruct Hj as [[-> _]|[Tj _]]; [reflexivity|]. rewrite set_touch in Tj by exact S1. discriminate.
      + clear IHh. apply writes_iff in Hk; [|apply (good_pre _ _ HG)].
        destruct Hk as [[-> [S1 A1]]|[Tk _]], Hj as [[-> [S2 A2]]|[Tj _]]; [reflexivity| | |].
        * rewrite set_touch in Tj by exact S1. discriminate.
        * exfalso. eapply good_dist2; [exact HG|eapply touch_uses; exact Tk|eapply set_uses; [exact S2|exact A2]].
        * exfalso. eapply good_dist1; [apply (good_pre _ _ HG)|eapply touch_uses; exact Tk|eapply touch_uses; exact Tj].
  Qed.

  (** ** what the access reads *)
  Lemma dout_content h c c' k a : good ((h ++ [c]) ++ [c']) -> touch n c k a = true ->
    l_dout n (st (h ++ [c])) c' k = x_content W (ports init (h ++ [c])) a.
  Proof.
    intros HG Ht. unfold l_dout. rewrite ram_final.
    pose proof (good_pre _ _ HG) as HG1. pose proof (touch_le _ _ _ Ht) as Hk.
    pose proof (good_held _ _ _ _ _ HG Hk Ht) as [_ Hh].
    pose proof (ports_disc _ HG1) as HD. rewrite ports_snoc in HD |- *.
    assert (P : xr_en (l_rports c k) = true /\ xr_addr (l_rports c k) = a).
    { unfold touch in Ht. apply andb_true_iff in Ht. destruct Ht as [_ Ht]. destruct k as [|k]; cbn [l_rports xr_en xr_addr].
      - apply andb_true_iff in Ht. destruct Ht as [T1 T2]. apply Nat.eqb_eq in T2. auto.
      - apply andb_true_iff in Ht. destruct Ht as [T1 T2]. apply Nat.eqb_eq in T2. apply andb_true_iff in T1. destruct T1. auto. }
    destruct P as [P1 P2].
    apply c34_any; [exact HD|exact P1|exact P2| |].
    - cbn [xi_r]. destruct k as [|k]; cbn [l_rports xr_addr]; [exact Hh|apply Hh].
    - intros h' p E j Hw. destruct h as [|b h] using rev_ind.
      + destruct h'; discriminate E.
      + clear IHh. rewrite ports_snoc in E. apply app_inj_tail in E. destruct E as [_ <-].
        destruct h as [|d h] using rev_ind.
        * apply (writes_first b) in Hw. destruct Hw as [-> [S1 A1]].
          eapply good_dist1; [exact HG1|eapply set_uses; eassumption|eapply touch_uses; exact Ht].
        * clear IHh. apply writes_iff in Hw; [|apply (good_pre _ _ HG1)].
          destruct Hw as [[-> [S1 A1]]|[Tj _]].
          -- eapply good_dist1; [exact HG1|eapply set_uses; eassumption|eapply touch_uses; exact Ht].
          -- eapply good_dist2; [exact HG1|eapply touch_uses; exact Tj|eapply touch_uses; exact Ht].
  Qed.

  (** ** masks *)
  Definition way_mask (c : l_in) (a : nat) (v : N) (k : nat) : N :=
    if touch n c k a then onehot (match k with O => lru v | S j => li_way (ln_incr c j) end) else 0%N.
  Definition masks (c : l_in) (a : nat) (v : N) (l : list nat) : N := fold_right N.lor 0%N (map (way_mask c a v) l).

  Lemma merge_eq h c c' a v cnt : good ((h ++ [c]) ++ [c']) -> forall from oh, from + cnt <= n ->
    merge (st (h ++ [c])) c' a from cnt oh = N.lor oh (masks c a v (seq (S from) cnt)).
  Proof.
    intros HG. induction cnt as [|cnt IH]; intros from oh Hn; [cbn; rewrite N.lor_0_r; reflexivity|].
    cbn [merge seq]. rewrite IH by lia. rewrite <- N.lor_assoc. f_equal.
    unfold masks. cbn [map fold_right]. f_equal. unfold way_mask. rewrite it_after by lia.
    destruct (touch n c (S from) a) eqn:E; [|reflexivity].
    destruct (good_held _ _ _ _ _ HG (touch_le _ _ _ E) E) as [_ [_ Hw]]. rewrite Hw. reflexivity.
  Qed.

  Lemma masks_skip c a v l : (forall j, In j l -> touch n c j a = false) -> masks c a v l = 0%N.
  Proof.
    unfold masks. induction l as [|x l IH]; intros H; [reflexivity|]. cbn [map fold_right]. rewrite IH by (intros j Hj; apply H; right; exact Hj).
    unfold way_mask. rewrite H by (left; reflexivity). reflexivity.
  Qed.
  Lemma masks_app c a v l l' : masks c a v (l ++ l') = N.lor (masks c a v l) (masks c a v l').
  Proof.
    unfold masks. induction l as [|x l IH]; [reflexivity|]. cbn [app map fold_right]. rewrite IH, N.lor_assoc. reflexivity.
  Qed.
  Lemma masks_first c a v k : k <= n -> first c k a -> used_ways n lru c a v = N.lor (way_mask c a v k) (masks c a v (seq (S k) (n - k))).
  Proof.
    intros Hk [_ H]. change (used_ways n lru c a v) with (masks c a v (seq 0 (S n))).
    replace (S n) with (k + S (n - k)) by lia. rewrite seq_app, masks_app. rewrite masks_skip; [|intros j Hj; apply in_seq in Hj; apply H; lia].
    rewrite Nat.add_0_l. reflexivity.
  Qed.

  Lemma din_of h c c' k a : good ((h ++ [c]) ++ [c']) -> first c k a ->
    xw_din (l_wports n mark lru (st (h ++ [c])) c' k) =
    mark (x_content W (ports init (h ++ [c])) a) (used_ways n lru c a (x_content W (ports init (h ++ [c])) a)).
  Proof.
    intros HG HF. pose proof (proj1 HF) as Ht. pose proof (good_pre _ _ HG) as HG1. pose proof (touch_le _ _ _ Ht) as Hk.
    pose proof (good_held _ _ _ _ _ HG Hk Ht) as [Hs Hh].
    rewrite <- (dout_content h c c' k a HG Ht). rewrite (masks_first _ _ _ k Hk HF).
    set (v := l_dout n (st (h ++ [c])) c' k). unfold way_mask. rewrite Ht.
    destruct k as [|k]; cbn [l_wports].
    - unfold l_w0. rewrite Hs. cbn [xw_din]. unfold l_victim.
      pose proof (vt_after h c a HG1) as E. rewrite Ht in E. apply andb_true_iff in E. destruct E as [_ E]. apply Nat.eqb_eq in E. rewrite E.
      rewrite (merge_eq h c c' a v) by (exact HG || lia). rewrite Nat.sub_0_r. reflexivity.
    - unfold l_wk. cbn [xw_din].
      pose proof (it_after h c k a ltac:(lia)) as E. rewrite Ht in E. apply andb_true_iff in E. destruct E as [_ E]. apply Nat.eqb_eq in E. rewrite E.
      rewrite (merge_eq h c c' a v) by (exact HG || lia). destruct Hh as [_ Hh]. rewrite Hh. reflexivity.
  Qed.

  Lemma record_after_touch c k a v : touch n c k a = true -> record_after n mark lru c a v = mark v (used_ways n lru c a v).
  Proof.
    intros Ht. unfold record_after. destruct (ln_set c) eqn:Es; [rewrite set_touch in Ht by exact Es; discriminate|].
    replace (existsb _ _) with true; [reflexivity|]. symmetry. apply existsb_exists. exists k. split; [|exact Ht].
    pose proof (touch_le _ _ _ Ht). apply in_seq. lia.
  Qed.

  Lemma record_after_none c a v : (forall k, touch n c k a = false) -> ln_set c = false -> record_after n mark lru c a v = v.
  Proof.
    intros H Hs. unfold record_after. rewrite Hs. destruct (existsb _ _) eqn:E; [|reflexivity].
    apply existsb_exists in E. destruct E as [j [_ E]]. rewrite H in E. discriminate.
  Qed.

  Lemma touch_dec c a : (exists k, first c k a) \/ (forall k, touch n c k a = false).
  Proof.
    assert (X : forall m, (exists k, first c k a) \/ (forall k, k < m -> touch n c k a = false)).
    { induction m as [|m IH]; [right; lia|]. destruct IH as [IH|IH]; [left; exact IH|].
      destruct (touch n c m a) eqn:E; [left; exists m; split; assumption|].
      right. intros k Hk. destruct (Nat.eq_dec k m) as [->|Hne]; [exact E|]. apply IH. lia. }
    destruct (X (S n)) as [H|H]; [left; exact H|]. right. intros k. destruct (touch n c k a) eqn:E; [|reflexivity].
    rewrite H in E; [discriminate|]. pose proof (touch_le _ _ _ E). lia.
  Qed.

  (** writes issued before the last cycle make the record before the last cycle *)
  Lemma content_record h c a : good (h ++ [c]) ->
    x_content W (ports init (h ++ [c])) a =
    if ln_set c then record n mark lru (h ++ [c]) a else record n mark lru h a.
  Proof.
    revert c a. induction h as [|b h IH] using rev_ind; intros c a HG.
    - cbn [app ports]. change [l_ports n mark lru init c] with ([] ++ [l_ports n mark lru init c]). rewrite content_snoc.
      cbn [record fold_left]. destruct (ln_set c) eqn:Es.
      + unfold record_after. rewrite Es. destruct (ln_set_addr c =? a) eqn:Ea.
        * apply Nat.eqb_eq in Ea. rewrite (mem_after_unique _ _ _ _ 0); [cbn; unfold l_w0; rewrite Es; reflexivity|lia| |].
          -- apply writes_first. auto.
          -- intros j Hj. apply writes_first in Hj. lia.
        * rewrite mem_after_none; [reflexivity|]. intros k Hk. apply writes_first in Hk.
          destruct Hk as [_ [_ X]]. apply Nat.eqb_neq in Ea. congruence.
      + rewrite mem_after_none; [reflexivity|]. intros k Hk. apply writes_first in Hk. destruct Hk as [_ [X _]]. congruence.
    - pose proof (good_pre _ _ HG) as HG1. specialize (IH b a HG1).
      rewrite (ports_snoc (h ++ [b])), content_snoc.
      assert (R : record n mark lru ((h ++ [b]) ++ [c]) a = record_after n mark lru c a (record n mark lru (h ++ [b]) a))
        by (unfold record; rewrite fold_left_app; reflexivity).
      assert (R1 : record n mark lru (h ++ [b]) a = record_after n mark lru b a (record n mark lru h a))
        by (unfold record; rewrite fold_left_app; reflexivity).
      destruct (touch_dec b a) as [[k HF]|TN].
      + pose proof (proj1 HF) as Tk. destruct (good_held _ _ _ _ _ HG (touch_le _ _ _ Tk) Tk) as [Hs _]. rewrite Hs.
        rewrite (mem_after_unique _ _ _ _ k).
        * cbn [l_ports xi_w]. rewrite (din_of h b c k a HG HF), IH, R1, (record_after_touch b k a _ Tk).
          destruct (ln_set b) eqn:Eb; [rewrite set_touch in Tk by exact Eb; discriminate|reflexivity].
        * pose proof (touch_le _ _ _ Tk). lia.
        * apply writes_iff; [exact HG|]. right. exact HF.
        * intros j Hj. apply writes_iff in Hj; [|exact HG]. destruct Hj as [[_ [X _]]|Tj]; [congruence|].
          eapply first_unique; eassumption.
      + assert (IH' : x_content W (ports init (h ++ [b])) a = record n mark lru (h ++ [b]) a).
        { rewrite IH. destruct (ln_set b) eqn:Eb; [reflexivity|]. rewrite R1, record_after_none; [reflexivity|exact TN|exact Eb]. }
        rewrite IH'. destruct (ln_set c) eqn:Es.
        * rewrite R. unfold record_after. rewrite Es. destruct (ln_set_addr c =? a) eqn:Ea.
          -- apply Nat.eqb_eq in Ea. rewrite (mem_after_unique _ _ _ _ 0); [cbn [l_ports xi_w l_wports]; unfold l_w0; rewrite Es; reflexivity|lia| |].
             ++ apply writes_iff; [exact HG|]. left. auto.
             ++ intros j Hj. apply writes_iff in Hj; [|exact HG]. destruct Hj as [[-> _]|[Tj _]]; [reflexivity|]. rewrite TN in Tj. discriminate.
          -- rewrite mem_after_none; [reflexivity|]. intros k Hk. apply writes_iff in Hk; [|exact HG].
             apply Nat.eqb_neq in Ea. destruct Hk as [[_ [_ X]]|[Tk _]]; [congruence|]. rewrite TN in Tk. discriminate.
        * rewrite mem_after_none; [reflexivity|]. intros k Hk. apply writes_iff in Hk; [|exact HG].
          destruct Hk as [[_ [X _]]|[Tk _]]; [congruence|]. rewrite TN in Tk. discriminate.
  Qed.

  Lemma c147 h c c' : good ((h ++ [c]) ++ [c']) -> ln_req c = true -> ln_set c = false ->
    lo_vld (snd (step (st (h ++ [c])) c')) = true /\
    lo_data (snd (step (st (h ++ [c])) c')) = lru (record n mark lru h (ln_req_addr c)).
  Proof.
    intros HG Hr Hs. pose proof (good_pre _ _ HG) as HG1.
    assert (Ht : touch n c 0 (ln_req_addr c) = true) by (unfold touch; rewrite Hs, Hr, Nat.eqb_refl; reflexivity).
    destruct (good_held _ _ _ _ _ HG (Nat.le_0_l n) Ht) as [Hs' _].
    cbn [l_step snd l_o lo_vld lo_data]. split.
    - pose proof (vt_after h c (ln_req_addr c) HG1) as E. rewrite Ht in E. apply andb_true_iff in E. destruct E as [E _].
      rewrite E, Hs'. reflexivity.
    - unfold l_victim. rewrite (dout_content h c c' 0 _ HG Ht), content_record by exact HG1. rewrite Hs. reflexivity.
  Qed.

  (** ** handshakes *)
  Lemma counts is : forall s, requests (trace step s is) + (if l_vld s then 1 else 0) =
    answers (trace step s is) + (if l_vld (final step s is) then 1 else 0).
  Proof.
    induction is as [|i is IH]; intros s; [reflexivity|].
    rewrite trace_cons, final_cons. specialize (IH (fst (step s i))). unfold requests, answers in *. cbn [filter fst snd] in *.
    cbn [l_step fst snd l_o lo_req_rd lo_vld l_next l_vld] in *. unfold l_load in *.
    destruct (ln_set i), (l_vld s), (ln_rd i), (ln_req i); cbn [negb andb orb length] in *; lia.
  Qed.

  Lemma c148 is c : ln_set c = false ->
    requests (trace step init is) = answers (trace step init is) + (if lo_vld (snd (step (st is) c)) then 1 else 0).
  Proof.
    intros H. pose proof (counts is init) as E. cbn [l_init l_vld] in E.
    cbn [l_step snd l_o lo_vld]. rewrite H. cbn [negb]. rewrite andb_true_r. lia.
  Qed.
End P.
