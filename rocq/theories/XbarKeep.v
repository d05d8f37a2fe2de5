(** An offered request of the AXI interconnects stays offered until the slave takes it. *)
From Verif Require Import Base BaseFacts FifoModel FifoProofs HsFifoProofs HsRegModel HsRegProofs JoinSplitModel JoinSplitSpec JoinSplitProofs OneHotModel EpModel XbarModel XbarSpec XbarLog XbarChan XbarProofs XbarExcl.

(** a fifo which is ready and accepts nothing stays ready *)
Lemma rdy_keep D (f : hsf_st (option nat)) l d rd : 2 <= D -> HRep D f l -> f_rdy f = true -> f_rdy (f_next D f false d rd) = true.
Proof.
  intros HD (qi & R & _) H. assert (0 < D - 1) as HD1 by lia. unfold f_rdy, f_next, hsf_step in *. cbn [i_vld i_data i_rd andb]. unfold inner_depth.
  set (en := (rd || negb (ovld f)) && negb (f_rwait (hf f))). pose proof (rep_step (D - 1) HD1 (hf f) qi (mk_fin false d en) R ltac:(discriminate)) as (R' & _). destruct (fifo_step (D - 1) (hf f) (mk_fin false d en)) as [f' fo]. cbn [fst hf] in *.
  rewrite (rep_wwait _ HD1 _ _ R) in H. rewrite (rep_wwait _ HD1 _ _ R'). unfold q_next. cbn [w_en r_en w_data]. pose proof (rep_len _ _ _ R). apply negb_true_iff, Nat.eqb_neq in H. apply negb_true_iff, Nat.eqb_neq.
  destruct (en && negb (length qi =? 0)); [destruct qi; cbn [tl length app] in *; rewrite ?app_nil_r; lia|rewrite ?app_nil_r; lia].
Qed.
Lemma lat_keep {T} (b : stage T) v d : sk b = KLat -> occ b = true -> occ (stage_next b v d false) = true /\ sdat (stage_next b v d false) = sdat b.
Proof. intros K O. unfold stage_next. rewrite K, O. cbn. rewrite andb_false_r. split; reflexivity. Qed.

Section Xb.
  Variables (NM NS AW DEPTH : nat) (conn : nat -> nat -> bool) (region : nat -> nat * nat).
  Hypothesis Hreg : regions_ok AW NS region.
  Hypothesis HNM : 0 < NM.
  Hypothesis HD : 2 <= DEPTH.
  Section Addr.
    Context {B : Type}.
    Variables (prio prio' : nat -> list bool) (p p' : nat) (av av' : nat -> bool) (ad ad' : nat -> nat * B) (srdy osr omr osr' omr' : nat -> bool) (s : nat).
    Hypothesis Hs : s < NS.
    Hypothesis Hp : p < NM. Hypothesis Hp' : p' < NM.
    Hypothesis Hprio : forall s, prio s = onehot NM p. Hypothesis Hprio' : forall s, prio' s = onehot NM p'.
    Hypothesis Ha : forall m, m < NM -> av m = true -> fst (ad m) < 2 ^ AW.
    Hypothesis Hk : forall m, m < NM -> av m = true -> x_mrd NM NS AW conn region prio av ad srdy osr omr m = false -> av' m = true /\ ad' m = ad m.
    Hypothesis Ho : forall m, m < NM -> osr m = true -> x_osv NM NS AW conn region prio av ad srdy osr omr m = false -> osr' m = true.
    Hypothesis Hm : omr s = true -> x_omv NM NS AW conn region prio av ad srdy osr s = false -> omr' s = true.
    Lemma svalid_keep : x_svalid NM NS AW conn region prio av ad osr omr s = true -> srdy s = false -> x_svalid NM NS AW conn region prio' av' ad' osr' omr' s = true.
    Proof.
      unfold x_svalid. rewrite !andb_true_iff, !if_iff. intros [H1 H2] Hr. unfold ms in H1. apply any_seq in H1. destruct H1 as (m & Hm1 & Hm2).
      assert (x_mrd0 NM NS AW conn region prio av ad srdy osr omr m = false) as M0.
      { apply not_true_iff_false. intros H. apply (mrd0_iff NM NS AW DEPTH conn region Hreg HNM HD prio av ad srdy osr omr Ha m Hm1) in H. destruct H as (s' & Hs' & Hb & Hr' & _).
        assert (s' = s) as -> by (eapply (arb_fun_s NM NS AW DEPTH conn region Hreg HNM HD prio av ad srdy osr omr Ha s' s m); eauto). congruence. }
      destruct (arb_facts NM NS AW DEPTH conn region Hreg HNM HD prio av ad osr Ha s m Hm1 Hs Hm2) as (F1 & F2 & F3 & F4). destruct (Hk m Hm1 F1) as (K1 & K2); [unfold x_mrd; rewrite M0; reflexivity|]. split.
      - apply (arb_some NM NS AW conn region prio' p' av' ad' osr' Hp' Hprio' s m Hm1). unfold x_vld, x_en. rewrite K1, K2, F2. unfold x_arb, x_vld, x_en in Hm2. rewrite !andb_true_iff in Hm2. destruct Hm2 as (_ & (_ & _ & H3) & _). rewrite H3. cbn [andb]. apply if_iff. intros Em. apply (Ho m Hm1); [apply F4, Em|]. unfold x_osv. rewrite M0. reflexivity.
      - intros Em. apply Hm; [apply H2, Em|]. unfold x_omv. rewrite Hr. apply andb_false_r.
    Qed.
  End Addr.
  Section R.
    Context {A B : Type}.
    Variable lst : A -> bool.
    Notation step := (@xr_step NM NS AW DEPTH conn region A B lst).
    Notation init := (@xr_init NM DEPTH B).
    Definition Kr (q : xr_st B) : Prop := (exists p, p < NM /\ forall s, xr_prio q s = onehot NM p) /\ (forall m, sk (xr_buf q m) = KLat /\ exists l, HRep DEPTH (xr_fs q m) l) /\ (forall s, exists l, HRep DEPTH (xr_fm q s) l) /\
      (forall m, m < NM -> occ (xr_buf q m) = true -> fst (sdat (xr_buf q m)) < 2 ^ AW).
    Lemma kr_step q i : Kr q -> r_env NM AW i -> Kr (fst (step q i)).
    Proof.
      intros ((p & Hp & Hpr) & H1 & H2 & H3) He. cbn [xr_step fst]. split; [|split; [|split]]; cbn [xr_prio xr_buf xr_fs xr_fm].
      - exists ((p + 1) mod NM). split; [apply Nat.mod_upper_bound; lia|]. intros s. rewrite tab_eq, Hpr. apply rol1_onehot. exact Hp.
      - intros m. destruct (H1 m) as (K & l & Hl). rewrite !tab_eq. split; [unfold stage_next; rewrite K; reflexivity|]. eexists. apply f_next_rep; eassumption.
      - intros s. destruct (H2 s) as (l & Hl). rewrite tab_eq. eexists. apply f_next_rep; eassumption.
      - intros m Hm. rewrite tab_eq. apply (buf_P (fun a => fst a < 2 ^ AW)); auto.
    Qed.
    Lemma kr_run d fs fm is : Forall (r_env NM AW) is -> Kr (final step (init d fs fm) is).
    Proof.
      intros He. induction is as [|i is IH] using rev_ind.
      - cbn. split; [exists 0; split; [exact HNM|intros s; apply prio_init_onehot]|]. split; [intros m; split; [reflexivity|exists []; apply hrep_init; auto; left; cbn; unfold inner_depth; lia]|]. split; [intros s; exists []; apply hrep_init; auto; left; cbn; unfold inner_depth; lia|]. discriminate.
      - rewrite final_snoc. apply Forall_app in He. destruct He as [He He']. apply kr_step; [apply IH, He|apply Forall_inv in He'; exact He'].
    Qed.
    Lemma r_keep q i i2 s : s < NS -> Kr q -> r_env NM AW i -> ro_arv (snd (step q i)) s = true -> ri_ard i s = false -> ro_arv (snd (step (fst (step q i)) i2)) s = true.
    Proof.
      intros Hs Hq He Hv Hr. pose proof (kr_step q i Hq He) as ((p' & Hp' & Hpr') & _). destruct Hq as ((p & Hp & Hpr) & H1 & H2 & H3).
      refine (svalid_keep (xr_prio q) (xr_prio (fst (step q i))) p' (fun m => occ (xr_buf q m)) _ (fun m => sdat (xr_buf q m)) _ (ri_ard i) (fun m => f_rdy (xr_fs q m)) (fun s => f_rdy (xr_fm q s)) _ _ s Hs Hp' Hpr' H3 _ _ _ Hv Hr).
      - intros m Hm Ho Hn. cbn [xr_step fst xr_buf]. rewrite !tab_eq. rewrite Hn. apply lat_keep; [apply H1|exact Ho].
      - intros m Hm Ho Hn. cbn [xr_step fst xr_fs]. rewrite !tab_eq. rewrite Hn. destruct (H1 m) as (_ & l & Hl). eapply rdy_keep; eassumption.
      - intros Ho Hn. cbn [xr_step fst xr_fm]. rewrite !tab_eq. rewrite Hn. destruct (H2 s) as (l & Hl). eapply rdy_keep; eassumption.
    Qed.
  End R.
  Section W.
    Context {A B R : Type}.
    Variables (lst : A -> bool) (tog : bool).
    Notation step := (@xw_step NM NS AW DEPTH conn region A B lst R tog).
    Notation init := (@xw_init NM DEPTH A B).
    Definition Kw (q : xw_st A B) : Prop := (exists p, p < NM /\ forall s, xw_prio q s = onehot NM p) /\ (forall m, sk (xw_buf q m) = KLat /\ (exists l, HRep DEPTH (xw_fsw q m) l) /\ exists l, HRep DEPTH (xw_fsb q m) l) /\
      (forall s, (exists l, HRep DEPTH (xw_fmw q s) l) /\ exists l, HRep DEPTH (xw_fmb q s) l) /\
      (forall m, m < NM -> occ (xw_buf q m) = true -> fst (sdat (xw_buf q m)) < 2 ^ AW).
    Lemma kw_step q i : Kw q -> w_env NM AW i -> Kw (fst (step q i)).
    Proof.
      intros ((p & Hp & Hpr) & H1 & H2 & H3) He. cbn [xw_step fst]. split; [|split; [|split]]; cbn [xw_prio xw_buf xw_fsw xw_fmw xw_fsb xw_fmb].
      - exists ((p + 1) mod NM). split; [apply Nat.mod_upper_bound; lia|]. intros s. rewrite tab_eq, Hpr. apply rol1_onehot. exact Hp.
      - intros m. destruct (H1 m) as (K & (l & Hl) & (l' & Hl')). rewrite !tab_eq. split; [unfold stage_next; rewrite K; reflexivity|]. split; eexists; apply f_next_rep; eassumption.
      - intros s. destruct (H2 s) as ((l & Hl) & (l' & Hl')). rewrite !tab_eq. split; eexists; apply f_next_rep; eassumption.
      - intros m Hm. rewrite tab_eq. apply (buf_P (fun a => fst a < 2 ^ AW)); auto.
    Qed.
    Lemma kw_run d fsw fmw fsb fmb w a is : Forall (w_env NM AW) is -> Kw (final step (init d fsw fmw fsb fmb w a) is).
    Proof.
      intros He. induction is as [|i is IH] using rev_ind.
      - cbn. split; [exists 0; split; [exact HNM|intros s; apply prio_init_onehot]|]. split; [intros m; split; [reflexivity|split; exists []; apply hrep_init; auto; left; cbn; unfold inner_depth; lia]|]. split; [intros s; split; exists []; apply hrep_init; auto; left; cbn; unfold inner_depth; lia|]. discriminate.
      - rewrite final_snoc. apply Forall_app in He. destruct He as [He He']. apply kw_step; [apply IH, He|apply Forall_inv in He'; exact He'].
    Qed.
  End W.
  Section W0.
    Context {A B R : Type}.
    Variable lst : A -> bool.
    Notation step := (@xw_step NM NS AW DEPTH conn region A B lst R false).
    Lemma w_keep q i i2 s : s < NS -> Kw q -> w_env NM AW i -> wo_awv (snd (step q i)) s = true -> wi_ard i s = false -> wo_awv (snd (step (fst (step q i)) i2)) s = true.
    Proof.
      intros Hs Hq He Hv Hr. pose proof (kw_step lst false q i Hq He) as ((p' & Hp' & Hpr') & _). destruct Hq as ((p & Hp & Hpr) & H1 & H2 & H3).
      cbn [xw_step snd fst wo_awv] in Hv |- *. unfold b_vld in Hv |- *.
      refine (svalid_keep (xw_prio q) _ p' (fun m => occ (xw_buf q m)) _ (fun m => sdat (xw_buf q m)) _ (fun s => b_rd false (xw_ab q s) (wi_ard i s)) (fun m => f_rdy (xw_fsw q m) && f_rdy (xw_fsb q m)) (fun s => f_rdy (xw_fmw q s) && f_rdy (xw_fmb q s)) _ _ s Hs Hp' Hpr' H3 _ _ _ Hv _).
      - intros m Hm Ho Hn. cbn [xw_buf]. rewrite !tab_eq. rewrite Hn. apply lat_keep; [apply H1|exact Ho].
      - intros m Hm Ho Hn. cbn [xw_fsw xw_fsb]. rewrite !tab_eq. rewrite Hn. destruct (H1 m) as (_ & (l & Hl) & (l' & Hl')). apply andb_true_iff in Ho. destruct Ho. cbn [andb]. apply andb_true_iff. split; eapply rdy_keep; eassumption.
      - intros Ho Hn. cbn [xw_fmw xw_fmb]. rewrite !tab_eq. rewrite Hn. destruct (H2 s) as ((l & Hl) & (l' & Hl')). apply andb_true_iff in Ho. destruct Ho. cbn [andb]. apply andb_true_iff. split; eapply rdy_keep; eassumption.
      - exact Hr.
    Qed.
  End W0.
End Xb.

(** two consecutive cycles of a run *)
Lemma trace_two {S I O} (step : S -> I -> S * O) is : forall q0 k c c', nth_error (trace step q0 is) k = Some c -> nth_error (trace step q0 is) (Datatypes.S k) = Some c' ->
  exists is0 i1 i2 is1, is = is0 ++ i1 :: i2 :: is1 /\ c = (i1, snd (step (final step q0 is0) i1)) /\ c' = (i2, snd (step (fst (step (final step q0 is0) i1)) i2)).
Proof.
  induction is as [|i is IH]; intros q0 k c c' H1 H2; [destruct k; discriminate|]. rewrite trace_cons in H1, H2. destruct k as [|k]; cbn [nth_error] in H1, H2.
  - injection H1 as <-. destruct is as [|i' is]; [discriminate|]. rewrite trace_cons in H2. injection H2 as <-. exists [], i, i', is. repeat split; reflexivity.
  - destruct (IH _ _ _ _ H1 H2) as (is0 & i1 & i2 & is1 & -> & E1 & E2). exists (i :: is0), i1, i2, is1. rewrite final_cons. auto.
Qed.
Section Run.
  Variables (NM NS AW DEPTH : nat) (conn : nat -> nat -> bool) (region : nat -> nat * nat).
  Hypothesis Hreg : regions_ok AW NS region.
  Hypothesis HNM : 0 < NM.
  Hypothesis HD : 2 <= DEPTH.
  Lemma ar_waits_run {A B} (lst : A -> bool) d fs fm is s : s < NS -> Forall (ar_fits NM AW) is -> ar_waits s (trace (@xr_step NM NS AW DEPTH conn region A B lst) (xr_init NM DEPTH d fs fm) is).
  Proof.
    intros Hs He k c c' H1 H2 Hv Hr. destruct (trace_two _ _ _ _ _ _ H1 H2) as (is0 & i1 & i2 & is1 & -> & -> & ->). cbn [fst snd] in *. apply Forall_app in He. destruct He as [He He']. apply Forall_inv in He'.
    eapply (r_keep NM NS AW DEPTH conn region Hreg HNM HD); eauto. apply kr_run; auto.
  Qed.
  Lemma aw_waits_run {A B R} (lst : A -> bool) tog d fsw fmw fsb fmb w a is s : s < NS -> Forall (aw_fits NM AW) is -> aw_waits s (trace (@xw_step NM NS AW DEPTH conn region A B lst R tog) (xw_init NM DEPTH d fsw fmw fsb fmb w a) is).
  Proof.
    intros Hs He. destruct tog.
    - intros k c c' H1 H2 Hv Hr. refine (proj1 (aw_stays_run NM NS AW DEPTH conn region lst true (xw_init NM DEPTH d fsw fmw fsb fmb w a) is s eq_refl (fun _ => eq_refl) k c c' H1 H2 Hv Hr)).
    - intros k c c' H1 H2 Hv Hr. destruct (trace_two _ _ _ _ _ _ H1 H2) as (is0 & i1 & i2 & is1 & -> & -> & ->). cbn [fst snd] in *. apply Forall_app in He. destruct He as [He He']. apply Forall_inv in He'.
      eapply (w_keep NM NS AW DEPTH conn region Hreg HNM HD); eauto. apply kw_run; auto.
  Qed.
End Run.
