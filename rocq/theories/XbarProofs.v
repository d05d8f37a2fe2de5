(** Proofs about AxiInterconnectMatrixR and AxiInterconnectMatrixW. *)
From Verif Require Import Base BaseFacts FifoModel HsRegModel JoinSplitModel OneHotModel EpModel XbarModel XbarSpec.
From Verif Require Import StreamFacts HsRegProofs JoinSplitSpec JoinSplitProofs OneHotProofs FifoProofs HsFifoProofs EpProofs XbarLog XbarChan.
From Verif Require MmuProofs.

Section Xb.
  Variables (NM NS AW DEPTH : nat) (conn : nat -> nat -> bool) (region : nat -> nat * nat).
  Hypothesis Hreg : regions_ok AW NS region.
  Hypothesis Hsh : shared NM NS conn.
  Hypothesis HNM : 0 < NM.
  Hypothesis HD : 2 <= DEPTH.
  Notation multi_s := (multi_s NS conn).
  Notation multi_m := (multi_m NM conn).
  Notation CI := (CI NM NS DEPTH conn region).

  (** * a channel from the slaves to the masters *)
  Section RC.
    Context {A B : Type}.
    Variables (lst : A -> bool) (L : list (tx A B)) (fs fm : nat -> hsf_st (option nat)) (dv : nat -> option A) (ordy : nat -> bool).
    Hypothesis Hci : CI lst L fs fm.
    Notation oi := (fun s => f_out (fm s)).
    Notation oo := (fun m => f_out (fs m)).
    Definition mvr (m s : nat) : bool := mvb conn multi_m multi_s oi oo dv ordy m s.
    Definition wdr (m s : nat) : option A := dv s.
    Notation tr := (tr NS mvr wdr).
    Notation L1 := (L1 NM NS lst L mvr wdr).
    Lemma rc_mv m s : m < NM -> s < NS -> mvr m s = true ->
      conn m s = true /\ (multi_s m = true -> f_out (fs m) = (true, Some s)) /\ (multi_m s = true -> f_out (fm s) = (true, Some m)) /\ exists w, wdr m s = Some w.
    Proof. clear. intros Hm Hs H. apply mvb_iff in H. destruct H as (H1 & H2 & H3 & H4 & H5). repeat split; auto. unfold wdr. destruct (dv s); [eauto|discriminate]. Qed.
    Lemma rc_fs m s s' : m < NM -> s < NS -> s' < NS -> mvr m s = true -> mvr m s' = true -> s = s'.
    Proof. apply (mvb_fun_i NS NM conn). intros o i i' H1 H2 H3 H4. apply one_s with (NS := NS); assumption. Qed.
    Lemma rc_fm m m' s : m < NM -> m' < NM -> s < NS -> mvr m s = true -> mvr m' s = true -> m = m'.
    Proof. apply (mvb_fun_o NS NM conn). intros o i i' H1 H2 H3 H4. apply one_m with (NM := NM); assumption. Qed.
    Lemma rc_tr m s w : m < NM -> (tr m = Some (s, w) <-> s < NS /\ mvr m s = true /\ dv s = Some w).
    Proof. intros Hm. apply (tr_iff NM NS mvr wdr); [exact rc_fs|exact Hm]. Qed.
    Lemma rc_last s w : dv s = Some w -> c_last lst dv s = lst w. Proof. unfold c_last. intros ->. reflexivity. Qed.
    Lemma rc_popm m : m < NM -> multi_s m = true ->
      (ovld (fs m) && c_oord NS conn lst multi_m multi_s oi oo dv ordy m = true <-> exists s w, tr m = Some (s, w) /\ lst w = true).
    Proof.
      intros Hm E. rewrite (popo_iff NS conn lst multi_m multi_s oi oo dv ordy m E). split.
      - intros (s & Hs & Hv & Hl). pose proof Hv as H. apply rc_mv in H; auto. destruct H as (_ & _ & _ & w & Ew). exists s, w. split; [apply rc_tr; auto|]. rewrite <- (rc_last s w Ew). exact Hl.
      - intros (s & w & Et & Hl). apply rc_tr in Et; auto. destruct Et as (Hs & Hv & Ew). exists s. rewrite (rc_last s w Ew). auto.
    Qed.
    Lemma rc_pops s : s < NS -> multi_m s = true ->
      (ovld (fm s) && c_oird NM conn lst multi_m multi_s oi oo dv ordy s = true <-> exists m w, m < NM /\ mvr m s = true /\ wdr m s = Some w /\ lst w = true).
    Proof.
      intros Hs E. rewrite (popi_iff NS NM conn lst multi_m multi_s oi oo dv ordy s E). split.
      - intros (Hl & m & Hm & Hv). pose proof Hv as H. apply rc_mv in H; auto. destruct H as (_ & _ & _ & w & Ew). exists m, w. repeat split; auto. rewrite <- (rc_last s w Ew). exact Hl.
      - intros (m & w & Hm & Hv & Ew & Hl). rewrite (rc_last s w Ew). eauto.
    Qed.
    Lemma rc_to m : m < NM -> (if c_ov NS conn multi_m multi_s oi oo dv m && ordy m then [c_data NS conn multi_s oo dv m] else []) = map Some (match tr m with Some (s, w) => [w] | None => [] end).
    Proof.
      intros Hm. destruct (c_ov NS conn multi_m multi_s oi oo dv m && ordy m) eqn:E.
      - apply ov_iff in E. destruct E as (s & Hs & Hv). pose proof Hv as H. apply rc_mv in H; auto. destruct H as (_ & _ & _ & w & Ew). rewrite (proj2 (rc_tr m s w Hm)) by auto.
        rewrite (data_mv NS NM conn multi_m multi_s oi oo dv ordy (fun i o o' H1 H2 H3 H4 => one_m NM conn i o o' H4 H2 H3) (fun o i i' H1 H2 H3 H4 => one_s NS conn o i i' H4 H2 H3) m s Hm Hs Hv). unfold wdr in Ew. rewrite Ew. reflexivity.
      - destruct (tr m) as [[s w]|] eqn:Et; [|reflexivity]. apply rc_tr in Et; auto. destruct Et as (Hs & Hv & _). apply not_true_iff_false in E. contradiction E. apply ov_iff. eauto.
    Qed.
    Lemma rc_words_m m : m < NM -> words (of_m m L1) = words (of_m m L) ++ match tr m with Some (s, w) => [w] | None => [] end.
    Proof.
      intros Hm. destruct (view_m NM NS DEPTH conn region Hsh HNM HD lst L fs fm Hci mvr wdr rc_mv rc_fs rc_fm m Hm) as [V _]. destruct (tr m) as [[s w]|]; [destruct V as (x & r & _ & _ & _ & V); exact V|rewrite V, app_nil_r; reflexivity].
    Qed.
    Lemma rc_words_s s : s < NS -> words (of_s s L1) = words (of_s s L) ++ match dv s with Some w => if c_irdy NM conn multi_m multi_s oi oo ordy s then [w] else [] | None => [] end.
    Proof.
      intros Hs. destruct (some (dv s) && c_irdy NM conn multi_m multi_s oi oo ordy s) eqn:E.
      - pose proof E as E'. apply (irdy_iff 0) in E'. destruct E' as (m & Hm & Hv). destruct (dv s) as [w|] eqn:Ew; [|discriminate]. cbn [some andb] in E. rewrite E.
        destruct (view_s_in NM NS DEPTH conn region Hsh HNM HD lst L fs fm Hci mvr wdr rc_mv rc_fs rc_fm m s w Hm Hs Hv Ew) as (_ & V & _). exact V.
      - rewrite (view_s_out NM NS DEPTH conn HNM HD lst L fs fm mvr wdr rc_mv rc_fs rc_fm s Hs).
        + destruct (dv s) as [w|]; [|rewrite app_nil_r; reflexivity]. cbn [some andb] in E. rewrite E, app_nil_r. reflexivity.
        + intros m Hm. destruct (mvr m s) eqn:Hv; [|reflexivity]. apply not_true_iff_false in E. contradiction E. apply (irdy_iff 0). eauto.
    Qed.
  End RC.

  (** * a channel from the masters to the slaves *)
  Section WC.
    Context {A B : Type}.
    Variables (lst : A -> bool) (L : list (tx A B)) (fs fm : nat -> hsf_st (option nat)) (dv : nat -> option A) (ordy : nat -> bool).
    Hypothesis Hci : CI lst L fs fm.
    Notation oi := (fun m => f_out (fs m)).
    Notation oo := (fun s => f_out (fm s)).
    Notation C := (fun s m => conn m s).
    Definition mvw (m s : nat) : bool := mvb C multi_s multi_m oi oo dv ordy s m.
    Definition wdw (m s : nat) : option A := dv m.
    Notation tr := (tr NS mvw wdw).
    Notation L1 := (L1 NM NS lst L mvw wdw).
    Lemma wc_mv m s : m < NM -> s < NS -> mvw m s = true ->
      conn m s = true /\ (multi_s m = true -> f_out (fs m) = (true, Some s)) /\ (multi_m s = true -> f_out (fm s) = (true, Some m)) /\ exists w, wdw m s = Some w.
    Proof. clear. intros Hm Hs H. apply mvb_iff in H. destruct H as (H1 & H2 & H3 & H4 & H5). repeat split; auto. unfold wdw. destruct (dv m); [eauto|discriminate]. Qed.
    Lemma wc_fs m s s' : m < NM -> s < NS -> s' < NS -> mvw m s = true -> mvw m s' = true -> s = s'.
    Proof. intros Hm Hs Hs'. apply (mvb_fun_o NM NS); auto. intros i o o' H1 H2 H3 H4. apply one_s with (NS := NS); assumption. Qed.
    Lemma wc_fm m m' s : m < NM -> m' < NM -> s < NS -> mvw m s = true -> mvw m' s = true -> m = m'.
    Proof. intros Hm Hm' Hs. apply (mvb_fun_i NM NS); auto. intros o i i' H1 H2 H3 H4. apply one_m with (NM := NM); assumption. Qed.
    Lemma wc_tr m s w : m < NM -> (tr m = Some (s, w) <-> s < NS /\ mvw m s = true /\ dv m = Some w).
    Proof. intros Hm. apply (tr_iff NM NS mvw wdw); [exact wc_fs|exact Hm]. Qed.
    Lemma wc_last m w : dv m = Some w -> c_last lst dv m = lst w. Proof. unfold c_last. intros ->. reflexivity. Qed.
    Lemma wc_popm m : m < NM -> multi_s m = true ->
      (ovld (fs m) && c_oird NS C lst multi_s multi_m oi oo dv ordy m = true <-> exists s w, tr m = Some (s, w) /\ lst w = true).
    Proof.
      intros Hm E. rewrite (popi_iff NM NS C lst multi_s multi_m oi oo dv ordy m E). split.
      - intros (Hl & s & Hs & Hv). pose proof Hv as H. apply wc_mv in H; auto. destruct H as (_ & _ & _ & w & Ew). exists s, w. split; [apply wc_tr; auto|]. rewrite <- (wc_last m w Ew). exact Hl.
      - intros (s & w & Et & Hl). apply wc_tr in Et; auto. destruct Et as (Hs & Hv & Ew). rewrite (wc_last m w Ew). eauto.
    Qed.
    Lemma wc_pops s : s < NS -> multi_m s = true ->
      (ovld (fm s) && c_oord NM C lst multi_s multi_m oi oo dv ordy s = true <-> exists m w, m < NM /\ mvw m s = true /\ wdw m s = Some w /\ lst w = true).
    Proof.
      intros Hs E. rewrite (popo_iff NM C lst multi_s multi_m oi oo dv ordy s E). split.
      - intros (m & Hm & Hv & Hl). pose proof Hv as H. apply wc_mv in H; auto. destruct H as (_ & _ & _ & w & Ew). exists m, w. repeat split; auto. rewrite <- (wc_last m w Ew). exact Hl.
      - intros (m & w & Hm & Hv & Ew & Hl). exists m. rewrite (wc_last m w Ew). auto.
    Qed.
    Lemma wc_words_m m : m < NM -> words (of_m m L1) = words (of_m m L) ++ match dv m with Some w => if c_irdy NS C multi_s multi_m oi oo ordy m then [w] else [] | None => [] end.
    Proof.
      intros Hm. destruct (view_m NM NS DEPTH conn region Hsh HNM HD lst L fs fm Hci mvw wdw wc_mv wc_fs wc_fm m Hm) as [V _].
      destruct (tr m) as [[s w]|] eqn:Et.
      - destruct V as (x & r & _ & _ & _ & ->). apply wc_tr in Et; auto. destruct Et as (Hs & Hv & Ew). assert (some (dv m) && c_irdy NS C multi_s multi_m oi oo ordy m = true) as E by (apply (irdy_iff 0); eauto). rewrite Ew in *. cbn [some andb] in E. rewrite E. reflexivity.
      - rewrite V. destruct (dv m) as [w|] eqn:Ew; [|rewrite app_nil_r; reflexivity]. destruct (c_irdy NS C multi_s multi_m oi oo ordy m) eqn:E; [|rewrite app_nil_r; reflexivity].
        assert (some (dv m) && c_irdy NS C multi_s multi_m oi oo ordy m = true) as E' by (rewrite Ew, E; reflexivity). apply (irdy_iff 0) in E'. destruct E' as (s & Hs & Hv). rewrite (proj2 (wc_tr m s w Hm)) in Et by auto. discriminate.
    Qed.
    Lemma wc_words_s s : s < NS -> map Some (words (of_s s L1)) = map Some (words (of_s s L)) ++ (if c_ov NM C multi_s multi_m oi oo dv s && ordy s then [c_data NM C multi_m oo dv s] else []).
    Proof.
      intros Hs. destruct (c_ov NM C multi_s multi_m oi oo dv s && ordy s) eqn:E.
      - pose proof E as E'. apply ov_iff in E'. destruct E' as (m & Hm & Hv). pose proof Hv as H. apply wc_mv in H; auto. destruct H as (_ & _ & _ & w & Ew).
        rewrite (data_mv NM NS C multi_s multi_m oi oo dv ordy (fun i o o' H1 H2 H3 H4 => one_s NS conn i o o' H4 H2 H3) (fun o i i' H1 H2 H3 H4 => one_m NM conn o i i' H4 H2 H3) s m Hs Hm Hv).
        destruct (view_s_in NM NS DEPTH conn region Hsh HNM HD lst L fs fm Hci mvw wdw wc_mv wc_fs wc_fm m s w Hm Hs Hv Ew) as (_ & -> & _). rewrite map_app. unfold wdw in Ew. rewrite Ew. reflexivity.
      - rewrite (view_s_out NM NS DEPTH conn HNM HD lst L fs fm mvw wdw wc_mv wc_fs wc_fm s Hs); [rewrite app_nil_r; reflexivity|].
        intros m Hm. destruct (mvw m s) eqn:Hv; [|reflexivity]. apply not_true_iff_false in E. contradiction E. apply ov_iff. eauto.
    Qed.
  End WC.

  Lemma ci_init {A B} (lst : A -> bool) (fs fm : nat -> (nat -> option nat) * option nat) :
    CI lst (@nil (tx A B)) (fun m => hsf_init DEPTH [] (fst (fs m)) (snd (fs m))) (fun s => hsf_init DEPTH [] (fst (fm s)) (snd (fm s))).
  Proof. constructor; [constructor| |]; intros k Hk; (split; [exact I|]); intros _; apply hrep_init; auto; left; cbn; unfold inner_depth; lia. Qed.

  (** the contents of the buffers stay addresses *)
  Lemma buf_bound {B} (q : stage (nat * B)) v d rd : (occ q = true -> fst (sdat q) < 2 ^ AW) -> (v = true -> fst d < 2 ^ AW) ->
    occ (stage_next q v d rd) = true -> fst (sdat (stage_next q v d rd)) < 2 ^ AW.
  Proof.
    clear. intros H1 H2 H. pose proof (stage_law q v d rd) as E. assert (In (sdat (stage_next q v d rd)) (opt (occ q) (sdat q) ++ opt (v && stage_rd q rd) d)) as Hin by (rewrite E, H; apply in_or_app; right; left; reflexivity).
    apply in_app_or in Hin. destruct Hin as [Hin|Hin].
    - destruct (occ q); cbn in Hin; [destruct Hin as [<-|[]]; auto|contradiction].
    - destruct v; cbn in Hin; [|contradiction]. destruct (stage_rd q rd); cbn in Hin; [|contradiction]. destruct Hin as [<-|[]]. auto.
  Qed.

  
  Definition g_as {B} : nat * nat * (nat * B) -> nat * B := fun k => snd k.
  Definition g_at {B} : nat * nat * (nat * B) -> option (nat * B) := fun k => Some (fst (snd k) - fst (region (snd (fst k))), snd (snd k)).

  (** * AxiInterconnectMatrixR *)
  Section R.
    Context {A B : Type}.
    Variable lst : A -> bool.
    Notation step := (@xr_step NM NS AW DEPTH conn region A B lst).
    Definition r_env (i : xr_in A B) : Prop := forall m, m < NM -> ri_arv i m = true -> fst (ri_ar i m) < 2 ^ AW.
    Record RI (q : xr_st B) (t : list (xr_in A B * xr_out A B)) (L : list (tx A B)) : Prop := {
      r_ci : CI lst L (xr_fs q) (xr_fm q);
      r_prio : exists p, p < NM /\ forall s, xr_prio q s = onehot NM p;
      r_m : forall m, m < NM -> (occ (xr_buf q m) = true -> fst (sdat (xr_buf q m)) < 2 ^ AW) /\
        ar_from m t = map tx_a (of_m m L) ++ opt (occ (xr_buf q m)) (sdat (xr_buf q m)) /\ r_to m t = map Some (words (of_m m L));
      r_s : forall s, s < NS -> ar_to s t = map (at_slave region) (of_s s L) /\ r_from s t = words (of_s s L) }.

    Lemma ri_step q t L i : RI q t L -> r_env i -> exists G, RI (fst (step q i)) (t ++ [(i, snd (step q i))]) (L1 NM NS lst L (mvr (xr_fs q) (xr_fm q) (ri_r i) (ri_rrd i)) (wdr (ri_r i)) ++ G).
    Proof.
      intros [Hci (p & Hp & Hpr) Hm Hs] He.
      set (av := fun m => occ (xr_buf q m)). set (ad := fun m => sdat (xr_buf q m)). set (osr := fun m => f_rdy (xr_fs q m)). set (omr := fun s => f_rdy (xr_fm q s)).
      assert (forall m, m < NM -> av m = true -> fst (ad m) < 2 ^ AW) as Ha by (intros m Hl; apply Hm; exact Hl).
      pose (G := grants NM NS AW conn region (A := A) (xr_prio q) av ad (ri_ard i) osr omr). exists G.
      set (mv := mvr (xr_fs q) (xr_fm q) (ri_r i) (ri_rrd i)). set (wd := wdr (ri_r i)). set (L' := L1 NM NS lst L mv wd).
      pose proof (grants_ok NM NS AW DEPTH conn region Hreg HNM HD (A := A) (xr_prio q) p av ad (ri_ard i) osr omr Hp Hpr Ha) as HG. fold G in HG.
      pose proof (fun m => grants_m NM NS AW DEPTH conn region Hreg HNM HD (A := A) (xr_prio q) p av ad (ri_ard i) osr omr Hp Hpr Ha m) as Gm. fold G in Gm.
      pose proof (fun s => grants_s NM NS AW DEPTH conn region HNM HD (A := A) (xr_prio q) p av ad (ri_ard i) osr omr Hp Hpr Ha s) as Gs. fold G in Gs.
      pose proof (fun s => gr_cases NM NS AW conn region (A := A) (xr_prio q) p av ad (ri_ard i) osr omr Hp Hpr s) as Gc.
      constructor.
      - apply (chan_step NM NS DEPTH conn region Hsh HNM HD lst L (xr_fs q) (xr_fm q) Hci mv wd); [apply rc_mv|apply rc_fs|apply rc_fm|exact HG| |].
        + intros m Hl E. eexists _, _, _. split; [etransitivity; [apply tab_eq|cbv beta; reflexivity]|]. split; [|apply rc_popm; assumption]. cbv beta. fold av ad osr omr. destruct (Gm m Hl) as [[Er Eg]|(s & Hsl & Eb & Er & Ev & Eg & Ed)]; rewrite Eg; cbn [map].
          * unfold x_osv. unfold x_mrd in Er. rewrite E in Er. destruct (x_mrd0 NM NS AW conn region (xr_prio q) av ad (ri_ard i) osr omr m); [|reflexivity]. cbn [andb] in Er. change (f_rdy (xr_fs q m)) with (osr m). rewrite Er, andb_false_r. reflexivity.
          * unfold x_osv. unfold x_mrd in Er. rewrite E in Er. apply andb_prop in Er. destruct Er as [Er Er']. rewrite Er, Ev, Ed. change (f_rdy (xr_fs q m)) with (osr m). rewrite Er'. reflexivity.
        + intros s Hl E. eexists _, _, _. split; [etransitivity; [apply tab_eq|cbv beta; reflexivity]|]. split; [|apply rc_pops; assumption]. cbv beta. fold av ad osr omr. rewrite (Gs s Hl). destruct (Gc s Hl) as [[Er Eg]|(m & Hml & Eb & Er & Eg & Er1 & Er2)]; rewrite Eg; cbn [map].
          * unfold x_omv. unfold x_svalid in Er. rewrite E in Er. change (f_rdy (xr_fm q s)) with (omr s). destruct (any (map (x_arb NM NS AW conn region (xr_prio q) av ad osr s) (ms NM))), (omr s), (ri_ard i s); cbn in *; congruence.
          * unfold x_omv. rewrite (omd_is NM NS AW conn region (xr_prio q) p av ad osr Hp Hpr s m Hml Eb). change (f_rdy (xr_fm q s)) with (omr s). rewrite (Er2 E), Er1. unfold x_svalid in Er. rewrite !andb_true_iff in Er. destruct Er as [[-> _] _]. reflexivity.
      - exists ((p + 1) mod NM). split; [apply Nat.mod_upper_bound; lia|]. intros s. cbn [xr_step fst xr_prio]; rewrite ?tab_eq; cbv beta. rewrite Hpr. apply rol1_onehot. exact Hp.
      - intros m Hl. destruct (Hm m Hl) as (M1 & M2 & M3). cbn [xr_step fst xr_buf]; rewrite ?tab_eq; cbv beta. fold av ad osr omr. split; [apply buf_bound; auto|]. unfold ar_from, r_to in *. rewrite !flat_map_app, M2, M3. cbn [flat_map fst snd ro_ard ro_rv ro_r xr_step]. fold av ad osr omr. rewrite !app_nil_r.
        unfold of_m. rewrite filter_app. fold (of_m m L') (of_m m G). rewrite map_app. unfold L' at 1. rewrite (L1_m NM NS lst L mv wd tx_a g_as m (fun x => eq_refl)). split.
        + fold (opt (ri_arv i m && stage_rd (xr_buf q m) (x_mrd NM NS AW conn region (xr_prio q) av ad (ri_ard i) osr omr m)) (ri_ar i m)). rewrite <- !app_assoc. f_equal. rewrite stage_law. f_equal.
          destruct (Gm m Hl) as [[Er ->]|(s & _ & _ & Er & Ev & -> & _)]; rewrite Er; [rewrite andb_false_r; reflexivity|]. change (occ (xr_buf q m)) with (av m). rewrite Ev. reflexivity.
        + rewrite (rc_to (xr_fs q) (xr_fm q) (ri_r i) (ri_rrd i) m Hl), words_app by (apply ofm_G with (1 := HG)). unfold L', mv, wd. rewrite (rc_words_m lst L (xr_fs q) (xr_fm q) (ri_r i) (ri_rrd i) Hci m Hl), map_app. reflexivity.
      - intros s Hl. destruct (Hs s Hl) as (S1 & S2). unfold ar_to, r_from in *. rewrite !flat_map_app, S1, S2. cbn [flat_map fst snd ro_arv ro_ar ro_rrd xr_step]. fold av ad osr omr. rewrite !app_nil_r.
        unfold of_s. rewrite filter_app. fold (of_s s L') (of_s s G). rewrite map_app. unfold L' at 1. rewrite (L1_s NM NS lst L mv wd (at_slave region) g_at s (fun x => eq_refl)). split.
        + f_equal. rewrite (Gs s Hl). destruct (Gc s Hl) as [[Er ->]|(m & Hml & Eb & Er & -> & Er1 & Er2)]; rewrite Er; [reflexivity|]. rewrite (saddr_is NM NS AW DEPTH conn region Hreg HNM HD (xr_prio q) p av ad (ri_ard i) osr omr Hp Hpr Ha s m Hml Hl Eb Er1). reflexivity.
        + rewrite words_app by (apply ofs_G with (1 := HG)). unfold L', mv, wd. rewrite (rc_words_s lst L (xr_fs q) (xr_fm q) (ri_r i) (ri_rrd i) Hci s Hl). reflexivity.
    Qed.
    Lemma ri_init d fs fm : RI (xr_init NM DEPTH d fs fm) [] [].
    Proof.
      constructor.
      - apply ci_init.
      - exists 0. split; [exact HNM|]. intros s. apply prio_init_onehot.
      - intros m Hm. cbn. repeat split. discriminate.
      - intros s Hs. split; reflexivity.
    Qed.
    Lemma ri_run d fs fm is : Forall r_env is -> exists L, RI (final step (xr_init NM DEPTH d fs fm) is) (trace step (xr_init NM DEPTH d fs fm) is) L.
    Proof.
      induction is as [|i is IH] using rev_ind; intros H; [exists []; apply ri_init|]. apply Forall_app in H. destruct H as [H1 H2]. destruct (IH H1) as [L HL]. rewrite final_snoc, trace_snoc.
      destruct (ri_step _ _ L i HL (Forall_inv H2)) as [G HG]. eexists. exact HG.
    Qed.
    Lemma c88 d fs fm is : Forall r_env is -> let t := trace step (xr_init NM DEPTH d fs fm) is in
      exists L, sent_right NM NS conn region L /\
        (forall m, m < NM -> in_order lst (of_m m L) /\ r_to m t = map Some (words (of_m m L)) /\ exists inside, ar_from m t = map tx_a (of_m m L) ++ inside /\ length inside <= 1) /\
        (forall s, s < NS -> in_order lst (of_s s L) /\ r_from s t = words (of_s s L) /\ ar_to s t = map (at_slave region) (of_s s L)).
    Proof.
      intros H t. destruct (ri_run d fs fm is H) as [L [Hci _ Hm Hs]]. exists L. split; [exact (ci_right _ _ _ _ _ _ _ _ _ Hci)|]. split.
      - intros m Hl. destruct (Hm m Hl) as (_ & M2 & M3). split; [exact (proj1 (ci_m _ _ _ _ _ _ _ _ _ Hci m Hl))|]. split; [exact M3|]. eexists. split; [exact M2|]. destruct (occ _); cbn; lia.
      - intros s Hl. destruct (Hs s Hl) as (S1 & S2). split; [exact (proj1 (ci_s _ _ _ _ _ _ _ _ _ Hci s Hl))|]. auto.
    Qed.
  End R.

  (** * AxiInterconnectMatrixW *)
  Section W.
    Context {A B R : Type}.
    Variables (lst : A -> bool) (tog : bool).
    Notation step := (@xw_step NM NS AW DEPTH conn region A B lst R tog).
    Definition w_env (i : xw_in A B R) : Prop := forall m, m < NM -> wi_awv i m = true -> fst (wi_aw i m) < 2 ^ AW.
    Definition bl (_ : R) : bool := true.
    (** the contents of a register which exists if [tog] *)
    Definition bc {T} (q : stage T) : list T := if tog then opt (occ q) (sdat q) else [].
    Lemma bc_law {T} (q : stage T) v d rd : bc q ++ opt (v && b_rd tog q rd) d = opt (b_vld tog q v && rd) (b_dat tog q d) ++ bc (stage_next q v d rd).
    Proof. clear. unfold bc, b_rd, b_vld, b_dat. destruct tog; [apply stage_law|rewrite app_nil_r; reflexivity]. Qed.
    Lemma bc_len {T} (q : stage T) : length (bc q) <= if tog then 1 else 0.
    Proof. clear. unfold bc. destruct tog; [destruct (occ q); cbn; lia|cbn; lia]. Qed.
    Record WI (q : xw_st A B) (t : list (xw_in A B R * xw_out A B R)) (Lw : list (tx A B)) (Lb : list (tx R B)) : Prop := {
      w_ciw : CI lst Lw (xw_fsw q) (xw_fmw q);
      w_cib : CI bl Lb (xw_fsb q) (xw_fmb q);
      w_req : map req Lw = map req Lb;
      w_prio : exists p, p < NM /\ forall s, xw_prio q s = onehot NM p;
      w_m : forall m, m < NM -> (occ (xw_buf q m) = true -> fst (sdat (xw_buf q m)) < 2 ^ AW) /\
        aw_from m t = map tx_a (of_m m Lw) ++ opt (occ (xw_buf q m)) (sdat (xw_buf q m)) /\
        w_from m t = words (of_m m Lw) ++ bc (xw_wb q m) /\ b_to m t = map Some (words (of_m m Lb));
      w_s : forall s, s < NS -> map (at_slave region) (of_s s Lw) = aw_to s t ++ bc (xw_ab q s) /\ w_to s t = map Some (words (of_s s Lw)) /\ b_from s t = words (of_s s Lb) }.

    Lemma grants_req (prio : nat -> list bool) (av : nat -> bool) (ad : nat -> nat * B) (srdy osr omr : nat -> bool) :
      map req (grants NM NS AW conn region (A := A) prio av ad srdy osr omr) = map req (grants NM NS AW conn region (A := R) prio av ad srdy osr omr).
    Proof.
      clear. unfold grants. induction (ss NS) as [|s l IH]; [reflexivity|]. cbn [flat_map]. rewrite !map_app, IH. f_equal. unfold gr. destruct (x_svalid NM NS AW conn region prio av ad osr omr s && srdy s); [|reflexivity]. destruct (find (x_arb NM NS AW conn region prio av ad osr s) (ms NM)); reflexivity.
    Qed.

    Definition wvec (q : xw_st A B) (i : xw_in A B R) (m : nat) : option A := if b_vld tog (xw_wb q m) (wi_wv i m) then Some (b_dat tog (xw_wb q m) (wi_w i m)) else None.
    Definition Lw1 (q : xw_st A B) (i : xw_in A B R) (Lw : list (tx A B)) : list (tx A B) := L1 NM NS lst Lw (mvw (xw_fsw q) (xw_fmw q) (wvec q i) (wi_wrd i)) (wdw (wvec q i)).
    Definition Lb1 (q : xw_st A B) (i : xw_in A B R) (Lb : list (tx R B)) : list (tx R B) := L1 NM NS bl Lb (mvr (xw_fsb q) (xw_fmb q) (wi_b i) (wi_brd i)) (wdr (wi_b i)).
    Lemma wi_step q t Lw Lb i : WI q t Lw Lb -> w_env i -> exists G GB, Forall (fun y : tx A B => tx_ws y = []) G /\ Forall (fun y : tx R B => tx_ws y = []) GB /\ WI (fst (step q i)) (t ++ [(i, snd (step q i))]) (Lw1 q i Lw ++ G) (Lb1 q i Lb ++ GB).
    Proof.
      intros [Hcw Hcb Hrq (p & Hp & Hpr) Hm Hs] He.
      set (av := fun m => occ (xw_buf q m)). set (ad := fun m => sdat (xw_buf q m)).
      set (osr := fun m => f_rdy (xw_fsw q m) && f_rdy (xw_fsb q m)). set (omr := fun s => f_rdy (xw_fmw q s) && f_rdy (xw_fmb q s)).
      set (srdy := fun s => b_rd tog (xw_ab q s) (wi_ard i s)).
      set (wv := wvec q i).
      assert (forall m, m < NM -> av m = true -> fst (ad m) < 2 ^ AW) as Ha by (intros m Hl; apply Hm; exact Hl).
      pose (G := grants NM NS AW conn region (A := A) (xw_prio q) av ad srdy osr omr). pose (GB := grants NM NS AW conn region (A := R) (xw_prio q) av ad srdy osr omr).
      pose (mv := mvw (xw_fsw q) (xw_fmw q) wv (wi_wrd i)). pose (wd := @wdw A wv). pose (L' := L1 NM NS lst Lw mv wd).
      pose (mvB := mvr (xw_fsb q) (xw_fmb q) (wi_b i) (wi_brd i)). pose (wdB := @wdr R (wi_b i)). pose (LB' := L1 NM NS bl Lb mvB wdB).
      exists G, GB. change (Lw1 q i Lw) with L'. change (Lb1 q i Lb) with LB'.
      pose proof (grants_ok NM NS AW DEPTH conn region Hreg HNM HD (A := A) (xw_prio q) p av ad srdy osr omr Hp Hpr Ha) as HG. fold G in HG.
      pose proof (fun m => grants_m NM NS AW DEPTH conn region Hreg HNM HD (A := A) (xw_prio q) p av ad srdy osr omr Hp Hpr Ha m) as Gm. fold G in Gm.
      pose proof (fun s => grants_s NM NS AW DEPTH conn region HNM HD (A := A) (xw_prio q) p av ad srdy osr omr Hp Hpr Ha s) as Gs. fold G in Gs.
      pose proof (fun s => gr_cases NM NS AW conn region (A := A) (xw_prio q) p av ad srdy osr omr Hp Hpr s) as Gc.
      pose proof (grants_ok NM NS AW DEPTH conn region Hreg HNM HD (A := R) (xw_prio q) p av ad srdy osr omr Hp Hpr Ha) as HGB. fold GB in HGB.
      pose proof (fun m => grants_m NM NS AW DEPTH conn region Hreg HNM HD (A := R) (xw_prio q) p av ad srdy osr omr Hp Hpr Ha m) as GBm. fold GB in GBm.
      pose proof (fun s => grants_s NM NS AW DEPTH conn region HNM HD (A := R) (xw_prio q) p av ad srdy osr omr Hp Hpr Ha s) as GBs. fold GB in GBs.
      pose proof (fun s => gr_cases NM NS AW conn region (A := R) (xw_prio q) p av ad srdy osr omr Hp Hpr s) as GBc.
      split; [exact (proj1 HG)|]. split; [exact (proj1 HGB)|].
      constructor.
      - apply (chan_step NM NS DEPTH conn region Hsh HNM HD lst Lw (xw_fsw q) (xw_fmw q) Hcw mv wd); [apply wc_mv|apply wc_fs|apply wc_fm|exact HG| |].
        + intros m Hl E. eexists _, _, _. split; [etransitivity; [apply tab_eq|cbv beta; reflexivity]|]. split; [|apply wc_popm; assumption]. cbv beta. fold av ad osr omr srdy. destruct (Gm m Hl) as [[Er Eg]|(s & Hsl & Eb & Er & Ev & Eg & Ed)]; rewrite Eg; cbn [map]; unfold x_osv; unfold x_mrd in Er; rewrite E in Er.
          * destruct (x_mrd0 NM NS AW conn region (xw_prio q) av ad srdy osr omr m); [|reflexivity]. cbn [andb] in Er. destruct (f_rdy (xw_fsw q m)) eqn:E1; [|rewrite andb_false_r; reflexivity]. destruct (f_rdy (xw_fsb q m)) eqn:E2; [|rewrite andb_false_r; reflexivity]. unfold osr in Er. rewrite E1, E2 in Er. discriminate.
          * apply andb_prop in Er. destruct Er as [Er Er']. rewrite Er, Ev, Ed. unfold osr in Er'. apply andb_prop in Er'. destruct Er' as [-> ->]. reflexivity.
        + intros s Hl E. eexists _, _, _. split; [etransitivity; [apply tab_eq|cbv beta; reflexivity]|]. split; [|apply wc_pops; assumption]. cbv beta. fold av ad osr omr srdy. rewrite (Gs s Hl). destruct (Gc s Hl) as [[Er Eg]|(m & Hml & Eb & Er & Eg & Er1 & Er2)]; rewrite Eg; cbn [map]; unfold x_omv.
          * unfold x_svalid in Er. rewrite E in Er. unfold omr in Er. destruct (any (map (x_arb NM NS AW conn region (xw_prio q) av ad osr s) (ms NM))), (f_rdy (xw_fmw q s)), (f_rdy (xw_fmb q s)); cbn [andb] in *; try reflexivity; try (rewrite Er; reflexivity); rewrite ?andb_false_r; reflexivity.
          * rewrite (omd_is NM NS AW conn region (xw_prio q) p av ad osr Hp Hpr s m Hml Eb). specialize (Er2 E). unfold omr in Er2. apply andb_prop in Er2. destruct Er2 as [-> ->]. rewrite Er1. unfold x_svalid in Er. rewrite !andb_true_iff in Er. destruct Er as [[-> _] _]. reflexivity.
      - apply (chan_step NM NS DEPTH conn region Hsh HNM HD bl Lb (xw_fsb q) (xw_fmb q) Hcb mvB wdB); [apply rc_mv|apply rc_fs|apply rc_fm|exact HGB| |].
        + intros m Hl E. eexists _, _, _. split; [etransitivity; [apply tab_eq|cbv beta; reflexivity]|]. split; [|apply rc_popm; assumption]. cbv beta. fold av ad osr omr srdy. destruct (GBm m Hl) as [[Er Eg]|(s & Hsl & Eb & Er & Ev & Eg & Ed)]; rewrite Eg; cbn [map]; unfold x_osv; unfold x_mrd in Er; rewrite E in Er.
          * destruct (x_mrd0 NM NS AW conn region (xw_prio q) av ad srdy osr omr m); [|reflexivity]. cbn [andb] in Er. destruct (f_rdy (xw_fsw q m)) eqn:E1; [|rewrite andb_false_r; reflexivity]. destruct (f_rdy (xw_fsb q m)) eqn:E2; [|rewrite andb_false_r; reflexivity]. unfold osr in Er. rewrite E1, E2 in Er. discriminate.
          * apply andb_prop in Er. destruct Er as [Er Er']. rewrite Er, Ev, Ed. unfold osr in Er'. apply andb_prop in Er'. destruct Er' as [-> ->]. reflexivity.
        + intros s Hl E. eexists _, _, _. split; [etransitivity; [apply tab_eq|cbv beta; reflexivity]|]. split; [|apply rc_pops; assumption]. cbv beta. fold av ad osr omr srdy. rewrite (GBs s Hl). destruct (GBc s Hl) as [[Er Eg]|(m & Hml & Eb & Er & Eg & Er1 & Er2)]; rewrite Eg; cbn [map]; unfold x_omv.
          * unfold x_svalid in Er. rewrite E in Er. unfold omr in Er. destruct (any (map (x_arb NM NS AW conn region (xw_prio q) av ad osr s) (ms NM))), (f_rdy (xw_fmw q s)), (f_rdy (xw_fmb q s)); cbn [andb] in *; try reflexivity; try (rewrite Er; reflexivity); rewrite ?andb_false_r; reflexivity.
          * rewrite (omd_is NM NS AW conn region (xw_prio q) p av ad osr Hp Hpr s m Hml Eb). specialize (Er2 E). unfold omr in Er2. apply andb_prop in Er2. destruct Er2 as [-> ->]. rewrite Er1. unfold x_svalid in Er. rewrite !andb_true_iff in Er. destruct Er as [[-> _] _]. reflexivity.
      - rewrite !map_app. unfold L', LB', L1. rewrite !dall_req, Hrq. f_equal. apply grants_req.
      - exists ((p + 1) mod NM). split; [apply Nat.mod_upper_bound; lia|]. intros s. cbn [xw_step fst xw_prio]; rewrite ?tab_eq; cbv beta. rewrite Hpr. apply rol1_onehot. exact Hp.
      - intros m Hl. destruct (Hm m Hl) as (M1 & M2 & M3 & M4). cbn [xw_step fst xw_buf xw_wb]; rewrite ?tab_eq; cbv beta. fold av ad osr omr srdy. split; [apply buf_bound; auto|]. unfold aw_from, w_from, b_to in *. rewrite !flat_map_app, M2, M3, M4. cbn [flat_map fst snd wo_ard wo_wrd wo_bv wo_b xw_step]. fold av ad osr omr srdy. rewrite !app_nil_r.
        unfold of_m. rewrite !filter_app. fold (of_m m L') (of_m m G) (of_m m LB') (of_m m GB). rewrite map_app. unfold L' at 1. rewrite (L1_m NM NS lst Lw mv wd tx_a g_as m (fun x => eq_refl)). repeat split.
        + fold (opt (wi_awv i m && stage_rd (xw_buf q m) (x_mrd NM NS AW conn region (xw_prio q) av ad srdy osr omr m)) (wi_aw i m)). rewrite <- !app_assoc. f_equal. rewrite stage_law. f_equal.
          destruct (Gm m Hl) as [[Er ->]|(s & _ & _ & Er & Ev & -> & _)]; rewrite Er; [rewrite andb_false_r; reflexivity|]. change (occ (xw_buf q m)) with (av m). rewrite Ev. reflexivity.
        + rewrite words_app by (apply ofm_G with (1 := HG)). unfold L', mv, wd. rewrite (wc_words_m lst Lw (xw_fsw q) (xw_fmw q) wv (wi_wrd i) Hcw m Hl). rewrite <- !app_assoc. f_equal.
          match goal with |- _ ++ (if wi_wv i m && b_rd tog _ ?rd then _ else _) = _ => pose proof (bc_law (xw_wb q m) (wi_wv i m) (wi_w i m) rd) as E end. unfold opt in E at 1. rewrite E. f_equal. unfold wv at 1, wvec at 1. destruct (b_vld tog (xw_wb q m) (wi_wv i m)); [|reflexivity]. cbn [andb]. match goal with |- opt ?x _ = _ => destruct x end; reflexivity.
        + rewrite (rc_to (xw_fsb q) (xw_fmb q) (wi_b i) (wi_brd i) m Hl), words_app by (apply ofm_G with (1 := HGB)). unfold LB', mvB, wdB. rewrite (rc_words_m bl Lb (xw_fsb q) (xw_fmb q) (wi_b i) (wi_brd i) Hcb m Hl), map_app. reflexivity.
      - intros s Hl. destruct (Hs s Hl) as (S1 & S2 & S3). unfold aw_to, w_to, b_from in *. rewrite !flat_map_app, S2, S3. cbn [flat_map fst snd wo_awv wo_aw wo_wv wo_w wo_brd xw_step xw_ab]; rewrite ?tab_eq; cbv beta. fold av ad osr omr srdy. fold (wvec q i). fold wv. rewrite !app_nil_r.
        unfold of_s. rewrite !filter_app. fold (of_s s L') (of_s s G) (of_s s LB') (of_s s GB). rewrite map_app. unfold L' at 1. rewrite (L1_s NM NS lst Lw mv wd (at_slave region) g_at s (fun x => eq_refl)). repeat split.
        + rewrite S1. rewrite <- !app_assoc. f_equal. fold (opt (b_vld tog (xw_ab q s) (x_svalid NM NS AW conn region (xw_prio q) av ad osr omr s) && wi_ard i s) (b_dat tog (xw_ab q s) (x_saddr NM NS AW conn region (xw_prio q) av ad srdy osr s))). rewrite <- bc_law. f_equal.
          change (b_rd tog (xw_ab q s) (wi_ard i s)) with (srdy s). rewrite (Gs s Hl). destruct (Gc s Hl) as [[Er ->]|(m & Hml & Eb & Er & -> & Er1 & Er2)]; rewrite Er; [reflexivity|]. rewrite (saddr_is NM NS AW DEPTH conn region Hreg HNM HD (xw_prio q) p av ad srdy osr omr Hp Hpr Ha s m Hml Hl Eb Er1). reflexivity.
        + rewrite words_app by (apply ofs_G with (1 := HG)). unfold L', mv, wd. rewrite (wc_words_s lst Lw (xw_fsw q) (xw_fmw q) wv (wi_wrd i) Hcw s Hl). reflexivity.
        + rewrite words_app by (apply ofs_G with (1 := HGB)). unfold LB', mvB, wdB. rewrite (rc_words_s bl Lb (xw_fsb q) (xw_fmb q) (wi_b i) (wi_brd i) Hcb s Hl). reflexivity.
    Qed.
    Lemma wi_init d fsw fmw fsb fmb w a : WI (xw_init NM DEPTH d fsw fmw fsb fmb w a) [] [] [].
    Proof.
      constructor.
      - apply ci_init.
      - apply ci_init.
      - reflexivity.
      - exists 0. split; [exact HNM|]. intros s. apply prio_init_onehot.
      - intros m Hm. cbn. unfold bc. cbn. repeat split; [discriminate|]. destruct tog; reflexivity.
      - intros s Hs. cbn. unfold bc. cbn. repeat split. destruct tog; reflexivity.
    Qed.
    Lemma wi_run d fsw fmw fsb fmb w a is : Forall w_env is -> exists Lw Lb, WI (final step (xw_init NM DEPTH d fsw fmw fsb fmb w a) is) (trace step (xw_init NM DEPTH d fsw fmw fsb fmb w a) is) Lw Lb.
    Proof.
      induction is as [|i is IH] using rev_ind; intros H; [exists [], []; apply wi_init|]. apply Forall_app in H. destruct H as [H1 H2]. destruct (IH H1) as (Lw & Lb & HL). rewrite final_snoc, trace_snoc.
      destruct (wi_step _ _ Lw Lb i HL (Forall_inv H2)) as (G & GB & _ & _ & X). eauto.
    Qed.
    Lemma c89 d fsw fmw fsb fmb w a is : Forall w_env is -> let t := trace step (xw_init NM DEPTH d fsw fmw fsb fmb w a) is in
      exists (Lw : list (tx A B)) (Lb : list (tx R B)), map req Lw = map req Lb /\ sent_right NM NS conn region Lw /\
        (forall m, m < NM -> in_order lst (of_m m Lw) /\ in_order (fun _ => true) (of_m m Lb) /\ b_to m t = map Some (words (of_m m Lb)) /\
          (exists inside, aw_from m t = map tx_a (of_m m Lw) ++ inside /\ length inside <= 1) /\
          (exists inside, w_from m t = words (of_m m Lw) ++ inside /\ length inside <= if tog then 1 else 0)) /\
        (forall s, s < NS -> in_order lst (of_s s Lw) /\ in_order (fun _ => true) (of_s s Lb) /\ b_from s t = words (of_s s Lb) /\
          w_to s t = map Some (words (of_s s Lw)) /\
          (exists inside, map (at_slave region) (of_s s Lw) = aw_to s t ++ inside /\ length inside <= if tog then 1 else 0)).
    Proof.
      intros H t. destruct (wi_run d fsw fmw fsb fmb w a is H) as (Lw & Lb & [Hcw Hcb Hr _ Hm Hs]). exists Lw, Lb. split; [exact Hr|]. split; [exact (ci_right _ _ _ _ _ _ _ _ _ Hcw)|]. split.
      - intros m Hl. destruct (Hm m Hl) as (_ & M2 & M3 & M4). split; [exact (proj1 (ci_m _ _ _ _ _ _ _ _ _ Hcw m Hl))|]. split; [exact (proj1 (ci_m _ _ _ _ _ _ _ _ _ Hcb m Hl))|]. split; [exact M4|]. split; eexists; (split; [eassumption|]); [destruct (occ _); cbn; lia|apply bc_len].
      - intros s Hl. destruct (Hs s Hl) as (S1 & S2 & S3). split; [exact (proj1 (ci_s _ _ _ _ _ _ _ _ _ Hcw s Hl))|]. split; [exact (proj1 (ci_s _ _ _ _ _ _ _ _ _ Hcb s Hl))|]. split; [exact S3|]. split; [exact S2|]. eexists. split; [exact S1|apply bc_len].
    Qed.
  End W.

  (** * progress *)
  Section Live.
    Context {A B : Type}.
    Variable lst : A -> bool.
    Notation pend := (@pend A B lst).
    Lemma pend_count (V : list (tx A B)) : in_order lst V -> length (filter pend V) + finished lst (words V) = length V.
    Proof.
      clear. induction V as [|x V IH]; [reflexivity|]. cbn [in_order]. unfold words, finished in *. cbn [flat_map filter]. rewrite filter_app, app_length. intros [[Hw Ho]|[Hn He]].
      - rewrite (whole_not_pend lst x Hw). specialize (IH Ho). destruct Hw as (l & w & -> & Ew & Hl). rewrite filter_app, app_length. cbn. rewrite Ew. cbn.
        assert (filter lst l = []) as -> by (clear - Hl; induction l as [|y l IH]; [reflexivity|]; cbn; rewrite (Forall_inv Hl); apply IH, (Forall_inv_tail Hl)). cbn. lia.
      - rewrite (part_pend lst x Hn). fold (words V). rewrite (words_empty V He), (pend_empty lst V He). cbn.
        assert (filter lst (tx_ws x) = []) as -> by (clear - Hn; induction (tx_ws x) as [|y l IH]; [reflexivity|]; cbn; rewrite (Forall_inv Hn); apply IH, (Forall_inv_tail Hn)). cbn. lia.
    Qed.
    Lemma finished_some (l : list A) : finished_o lst (map Some l) = finished lst l.
    Proof. clear. unfold finished, finished_o. induction l as [|w l IH]; [reflexivity|]. cbn. destruct (lst w); cbn; rewrite IH; reflexivity. Qed.

    (** the oldest request which is not complete *)
    Lemma oldest (L : list (tx A B)) : (exists x, In x L /\ pend x = true) -> exists x, In x L /\ pend x = true /\
      (exists r, filter pend (of_m (tx_m x) L) = x :: r) /\ (exists r, filter pend (of_s (tx_s x) L) = x :: r).
    Proof.
      clear. intros (y & Hy & Hp). induction L as [|x L IH]; [contradiction|]. destruct (pend x) eqn:E.
      - exists x. split; [left; reflexivity|]. split; [exact E|]. unfold of_m, of_s. cbn [filter]. rewrite !Nat.eqb_refl. cbn [filter]. rewrite E. eauto.
      - destruct Hy as [->|Hy]; [congruence|]. destruct (IH Hy) as (z & Hz & Ez & (r1 & E1) & (r2 & E2)). exists z. split; [right; exact Hz|]. split; [exact Ez|]. unfold of_m, of_s in *. cbn [filter]. split; [exists r1|exists r2].
        + destruct (tx_m x =? tx_m z); cbn [filter]; rewrite ?E; exact E1.
        + destruct (tx_s x =? tx_s z); cbn [filter]; rewrite ?E; exact E2.
    Qed.
    (** the heads of the queues are visible for the requests of [Lo] *)
    Definition seen (Lo : list (tx A B)) (fs fm : nat -> hsf_st (option nat)) : Prop :=
      (forall m, m < NM -> multi_s m = true -> filter pend (of_m m Lo) <> [] -> ovld (fs m) = true) /\
      (forall s, s < NS -> multi_m s = true -> filter pend (of_s s Lo) <> [] -> ovld (fm s) = true).
    Lemma rep_hd f (key : tx A B -> option nat) x r : HRep DEPTH f (map key (x :: r)) -> ovld f = true -> f_out f = (true, key x).
    Proof. clear. intros (qi & _ & E) Hv. rewrite Hv in E. injection E as E1 _. unfold f_out. rewrite Hv, <- E1. reflexivity. Qed.
    Lemma at_front Lo G fs fm : CI lst (Lo ++ G) fs fm -> seen Lo fs fm -> (exists x, In x Lo /\ pend x = true) ->
      exists m s, m < NM /\ s < NS /\ conn m s = true /\ (multi_s m = true -> f_out (fs m) = (true, Some s)) /\ (multi_m s = true -> f_out (fm s) = (true, Some m)) /\
        filter pend (of_m m Lo) <> [] /\ filter pend (of_s s Lo) <> [].
    Proof.
      clear. intros Hci [S1 S2] H. destruct (oldest Lo H) as (x & Hin & Ep & (r1 & E1) & (r2 & E2)). pose proof (ci_right _ _ _ _ _ _ _ _ _ Hci) as Hr. unfold sent_right in Hr. apply Forall_app in Hr. destruct Hr as [Hr _]. rewrite Forall_forall in Hr. destruct (Hr x Hin) as (R1 & R2 & R3 & _).
      exists (tx_m x), (tx_s x). split; [exact R1|]. split; [exact R2|]. split; [exact R3|]. split; [|split; [|split; congruence]].
      - intros E. destruct (ci_m _ _ _ _ _ _ _ _ _ Hci _ R1) as [_ Q]. specialize (Q E). unfold of_m in Q. rewrite filter_app in Q. fold (of_m (tx_m x) Lo) in Q. rewrite filter_app, E1 in Q. cbn [app] in Q. apply (rep_hd _ _ _ _ Q). apply S1; auto; congruence.
      - intros E. destruct (ci_s _ _ _ _ _ _ _ _ _ Hci _ R2) as [_ Q]. specialize (Q E). unfold of_s in Q. rewrite filter_app in Q. fold (of_s (tx_s x) Lo) in Q. rewrite filter_app, E2 in Q. cbn [app] in Q. apply (rep_hd _ _ _ _ Q). apply S2; auto; congruence.
    Qed.
    Lemma seen_step L fs fm mv wd fs' fm' : CI lst L fs fm ->
      (forall m s, m < NM -> s < NS -> mv m s = true -> conn m s = true /\ (multi_s m = true -> f_out (fs m) = (true, Some s)) /\ (multi_m s = true -> f_out (fm s) = (true, Some m)) /\ exists w, wd m s = Some w) ->
      (forall m s s', m < NM -> s < NS -> s' < NS -> mv m s = true -> mv m s' = true -> s = s') ->
      (forall m m' s, m < NM -> m' < NM -> s < NS -> mv m s = true -> mv m' s = true -> m = m') ->
      (forall m, m < NM -> multi_s m = true -> exists v d rd, fs' m = f_next DEPTH (fs m) v d rd /\ (ovld (fs m) && rd = true <-> exists s w, tr NS mv wd m = Some (s, w) /\ lst w = true)) ->
      (forall s, s < NS -> multi_m s = true -> exists v d rd, fm' s = f_next DEPTH (fm s) v d rd /\ (ovld (fm s) && rd = true <-> exists m w, m < NM /\ mv m s = true /\ wd m s = Some w /\ lst w = true)) ->
      seen (L1 NM NS lst L mv wd) fs' fm'.
    Proof.
      intros Hci H1 H2 H3 H4 H5. split.
      - intros m Hm E Hn. destruct (H4 m Hm E) as (v & d & rd & -> & Hpop). destruct (ci_m _ _ _ _ _ _ _ _ _ Hci m Hm) as [_ Q]. apply (MmuProofs.hs_present DEPTH HD _ _ (mk_hin v d rd) (Q E)). cbn [i_rd].
        destruct (view_m NM NS DEPTH conn region Hsh HNM HD lst L fs fm Hci mv wd H1 H2 H3 m Hm) as [V _]. destruct (tr NS mv wd m) as [[s w]|].
        + destruct V as (x & r & Ef & Ex & Ef' & _). rewrite Ef. rewrite Ef' in Hn. destruct (lst w) eqn:El.
          * rewrite (proj2 Hpop) by eauto. cbn. destruct r; [congruence|discriminate].
          * destruct (ovld (fs m) && rd); [|discriminate]. destruct (proj1 Hpop eq_refl) as (s1 & w1 & X1 & X2). injection X1 as _ <-. congruence.
        + rewrite V in Hn. destruct (ovld (fs m) && rd).
          * destruct (proj1 Hpop eq_refl) as (s1 & w1 & X1 & X2). discriminate.
          * destruct (filter pend (of_m m L)); [congruence|discriminate].
      - intros s Hs E Hn. destruct (H5 s Hs E) as (v & d & rd & -> & Hpop). destruct (ci_s _ _ _ _ _ _ _ _ _ Hci s Hs) as [_ Q]. apply (MmuProofs.hs_present DEPTH HD _ _ (mk_hin v d rd) (Q E)). cbn [i_rd].
        destruct (find (fun m => mv m s) (ms NM)) as [m|] eqn:Ef.
        + apply find_seq_some in Ef. destruct Ef as [Hm Em]. destruct (H1 m s Hm Hs Em) as (_ & _ & _ & w & Ew). destruct (view_s_in NM NS DEPTH conn region Hsh HNM HD lst L fs fm Hci mv wd H1 H2 H3 m s w Hm Hs Em Ew) as ((x & r & Ex & X1 & X2) & _). rewrite Ex. rewrite X2 in Hn. destruct (lst w) eqn:El.
          * rewrite (proj2 Hpop) by (exists m, w; auto). cbn. destruct r; [congruence|discriminate].
          * destruct (ovld (fm s) && rd); [|discriminate]. destruct (proj1 Hpop eq_refl) as (m1 & w1 & E1 & E2 & E3 & E4). rewrite (H3 m1 m s E1 Hm Hs E2 Em) in *. congruence.
        + assert (forall m, m < NM -> mv m s = false) as Hno. { intros m Hm. pose proof (find_none _ _ Ef m) as X. cbn in X. apply X, in_seq. lia. }
          rewrite (view_s_out NM NS DEPTH conn HNM HD lst L fs fm mv wd H1 H2 H3 s Hs Hno) in Hn. destruct (ovld (fm s) && rd).
          * destruct (proj1 Hpop eq_refl) as (m1 & w1 & E1 & E2 & _). rewrite Hno in E2 by exact E1. discriminate.
          * destruct (filter pend (of_s s L)); [congruence|discriminate].
    Qed.
    (** a request of the view of the slave which is not complete *)
    Lemma pend_in s (L : list (tx A B)) : in_order lst (of_s s L) -> (filter pend (of_s s L) <> [] <-> finished lst (words (of_s s L)) < length (of_s s L)).
    Proof. clear. intros Ho. pose proof (pend_count _ Ho). destruct (filter pend (of_s s L)); cbn in *; split; intros X; try congruence; try discriminate; lia. Qed.
    Lemma pend_in_m m (L : list (tx A B)) : in_order lst (of_m m L) -> (filter pend (of_m m L) <> [] <-> finished lst (words (of_m m L)) < length (of_m m L)).
    Proof. clear. intros Ho. pose proof (pend_count _ Ho). destruct (filter pend (of_m m L)); cbn in *; split; intros X; try congruence; try discriminate; lia. Qed.
    Lemma pend_some s (L : list (tx A B)) : filter pend (of_s s L) <> [] -> exists x, In x L /\ pend x = true.
    Proof. clear. destruct (filter pend (of_s s L)) as [|x r] eqn:E; [congruence|]. intros _. exists x. assert (In x (filter pend (of_s s L))) as H by (rewrite E; left; reflexivity). apply filter_In in H. destruct H as [H H']. apply filter_In in H. tauto. Qed.
    Lemma len_app_s s (Lo G : list (tx A B)) : filter pend (of_s s Lo) <> [] -> filter pend (of_s s (Lo ++ G)) <> [].
    Proof. clear. unfold of_s. rewrite !filter_app. destruct (filter pend (filter _ Lo)); [congruence|discriminate]. Qed.
    Lemma len_app_m m (Lo G : list (tx A B)) : filter pend (of_m m Lo) <> [] -> filter pend (of_m m (Lo ++ G)) <> [].
    Proof. clear. unfold of_m. rewrite !filter_app. destruct (filter pend (filter _ Lo)); [congruence|discriminate]. Qed.

    (** the master with the priority *)
    Lemma prio_wins (prio : nat -> list bool) m av (ad : nat -> nat * B) srdy osr omr s : m < NM -> s < NS -> (forall s, prio s = onehot NM m) -> av m = true -> fst (ad m) < 2 ^ AW ->
      conn m s = true -> owns (region s) (fst (ad m)) -> (multi_s m = true -> osr m = true) -> (multi_m s = true -> omr s = true) -> srdy s = true -> x_mrd NM NS AW conn region prio av ad srdy osr omr m = true.
    Proof.
      intros Hm Hs Hp Hv Hlt Hc Ho H1 H2 H3. unfold x_mrd. rewrite andb_true_iff, if_iff. split; [|exact H1]. unfold x_mrd0, ss. apply any_seq. exists s. split; [exact Hs|]. rewrite Hc, H3. cbn [andb]. rewrite andb_true_r. rewrite andb_true_iff, if_iff. split; [|exact H2].
      apply (arb_wins NM NS AW conn region prio m av ad osr Hm Hp s m Hm). split; [|left; reflexivity]. unfold ms. rewrite nth_map_seq by exact Hm. unfold x_vld, x_en. rewrite Hv, Hc. cbn [andb]. rewrite (proj2 (hit_iff NM NS AW DEPTH region Hreg HNM HD s _ Hs Hlt) Ho). cbn [andb]. apply if_iff. exact H1.
    Qed.
    Lemma rdy_few f q : HRep DEPTH f q -> length q < DEPTH - 1 -> f_rdy f = true.
    Proof. intros H Hl. destruct (hrep_step DEPTH HD f q (mk_hin false None false) H) as (_ & _ & _ & Hr & _). specialize (Hr Hl). rewrite step_out in Hr. exact Hr. Qed.
    Lemma few_m (L : list (tx A B)) fs fm m : CI lst L fs fm -> m < NM -> multi_s m = true -> length (of_m m L) < finished lst (words (of_m m L)) + (DEPTH - 1) -> f_rdy (fs m) = true.
    Proof. intros H Hm E Hl. destruct (ci_m _ _ _ _ _ _ _ _ _ H m Hm) as [Ho Q]. apply (rdy_few _ _ (Q E)). rewrite map_length. pose proof (pend_count _ Ho). lia. Qed.
    Lemma few_s (L : list (tx A B)) fs fm s : CI lst L fs fm -> s < NS -> multi_m s = true -> length (of_s s L) < finished lst (words (of_s s L)) + (DEPTH - 1) -> f_rdy (fm s) = true.
    Proof. intros H Hm E Hl. destruct (ci_s _ _ _ _ _ _ _ _ _ H s Hm) as [Ho Q]. apply (rdy_few _ _ (Q E)). rewrite map_length. pose proof (pend_count _ Ho). lia. Qed.
  End Live.

  (** buffers hold only what was accepted *)
  Lemma buf_P {T} (P : T -> Prop) (q : stage T) v d rd : (occ q = true -> P (sdat q)) -> (v = true -> P d) -> occ (stage_next q v d rd) = true -> P (sdat (stage_next q v d rd)).
  Proof.
    clear. intros H1 H2 H. pose proof (stage_law q v d rd) as E. assert (In (sdat (stage_next q v d rd)) (opt (occ q) (sdat q) ++ opt (v && stage_rd q rd) d)) as Hin by (rewrite E, H; apply in_or_app; right; left; reflexivity).
    apply in_app_or in Hin. destruct Hin as [Hin|Hin].
    - destruct (occ q); cbn in Hin; [destruct Hin as [<-|[]]; auto|contradiction].
    - destruct v; cbn in Hin; [|contradiction]. destruct (stage_rd q rd); cbn in Hin; [|contradiction]. destruct Hin as [<-|[]]. auto.
  Qed.
  Notation mapped := (mapped NS conn region).

  Section RL.
    Context {A B : Type}.
    Variable lst : A -> bool.
    Notation step := (@xr_step NM NS AW DEPTH conn region A B lst).
    Notation init := (@xr_init NM DEPTH B).
    Lemma r_seen q t L i : RI lst q t L -> seen lst (L1 NM NS lst L (mvr (xr_fs q) (xr_fm q) (ri_r i) (ri_rrd i)) (wdr (ri_r i))) (xr_fs (fst (step q i))) (xr_fm (fst (step q i))).
    Proof.
      intros [Hci _ _ _]. apply seen_step with (1 := Hci); [apply rc_mv|apply rc_fs|apply rc_fm| |].
      - intros m Hm E. eexists _, _, _. split; [etransitivity; [apply tab_eq|cbv beta; reflexivity]|apply rc_popm; assumption].
      - intros s Hs E. eexists _, _, _. split; [etransitivity; [apply tab_eq|cbv beta; reflexivity]|apply rc_pops; assumption].
    Qed.
    Lemma c88_live d fs fm is i1 i2 : Forall r_env (is ++ [i1]) ->
      let t0 := trace step (init d fs fm) is in let t1 := trace step (init d fs fm) (is ++ [i1]) in let t2 := trace step (init d fs fm) (is ++ [i1; i2]) in
      (exists s, s < NS /\ finished lst (r_from s t1) < length (ar_to s t0)) ->
      (forall m, m < NM -> ri_rrd i2 m = true) ->
      (forall s, s < NS -> finished lst (r_from s t1) < length (ar_to s t1) -> exists w, ri_r i2 s = Some w) ->
      exists m, m < NM /\ length (r_to m t1) < length (r_to m t2).
    Proof.
      intros He t0 t1 t2 (s0 & Hs0 & Hout) Hrd Hdv. apply Forall_app in He. destruct He as [He He1]. destruct (ri_run lst d fs fm is He) as [L HL]. fold t0 in HL.
      set (q0 := final step (init d fs fm) is) in *. destruct (ri_step lst q0 t0 L i1 HL (Forall_inv He1)) as [G HL1]. pose proof (r_seen q0 t0 L i1 HL) as Hse. set (Lo := L1 _ _ _ _ _ _) in *. set (q1 := fst (step q0 i1)) in *.
      assert (t1 = t0 ++ [(i1, snd (step q0 i1))]) as E1 by apply trace_snoc. rewrite <- E1 in HL1.
      assert (t2 = t1 ++ [(i2, snd (step q1 i2))]) as E2. { unfold t2, t1. change [i1; i2] with ([i1] ++ [i2]). rewrite app_assoc, trace_snoc. do 3 f_equal. rewrite final_snoc. reflexivity. }
      pose proof (r_ci _ _ _ _ HL1) as Hci. pose proof (ci_right _ _ _ _ _ _ _ _ _ (r_ci _ _ _ _ HL)).
      assert (forall s, length (of_s s Lo) = length (of_s s L)) as Hlen. { intros s. pose proof (L1_s NM NS lst L (mvr (xr_fs q0) (xr_fm q0) (ri_r i1) (ri_rrd i1)) (wdr (ri_r i1)) (@req A B) (fun k => k) s (fun x => eq_refl)) as X. apply (f_equal (@length _)) in X. rewrite !map_length in X. exact X. }
      assert (forall s, s < NS -> in_order lst (of_s s Lo) /\ words (of_s s Lo) = r_from s t1) as HLo.
      { intros s Hs. split.
        - destruct (find (fun m => mvr (xr_fs q0) (xr_fm q0) (ri_r i1) (ri_rrd i1) m s) (ms NM)) as [m|] eqn:Ef.
          + apply find_seq_some in Ef. destruct Ef as [Hm Em]. destruct (rc_mv _ _ _ _ m s Hm Hs Em) as (_ & _ & _ & w & Ew). apply (view_s_in NM NS DEPTH conn region Hsh HNM HD lst L _ _ (r_ci _ _ _ _ HL) _ _ (rc_mv _ _ _ _) (rc_fs _ _ _ _) (rc_fm _ _ _ _) m s w Hm Hs Em Ew).
          + unfold Lo. rewrite (view_s_out NM NS DEPTH conn HNM HD lst L _ _ _ _ (rc_mv _ _ _ _) (rc_fs _ _ _ _) (rc_fm _ _ _ _) s Hs); [exact (proj1 (ci_s _ _ _ _ _ _ _ _ _ (r_ci _ _ _ _ HL) s Hs))|]. intros m Hm. pose proof (find_none _ _ Ef m) as X. cbn in X. apply X, in_seq. lia.
        - destruct (r_s _ _ _ _ HL s Hs) as [_ X]. rewrite E1. unfold r_from in *. rewrite flat_map_app, X. unfold Lo. rewrite (rc_words_s lst L _ _ _ _ (r_ci _ _ _ _ HL) s Hs). cbn [flat_map fst snd ro_rrd xr_step]. rewrite app_nil_r. reflexivity. }
      assert (forall s, s < NS -> length (ar_to s t0) = length (of_s s Lo)) as Har. { intros s Hs. rewrite Hlen, (proj1 (r_s _ _ _ _ HL s Hs)), map_length. reflexivity. }
      destruct (at_front lst Lo G _ _ Hci Hse) as (m & s & Hm & Hs & Hc & F1 & F2 & P1 & P2).
      { apply (pend_some lst s0). apply pend_in; [apply HLo; exact Hs0|]. rewrite <- Har by exact Hs0. rewrite (proj2 (HLo s0 Hs0)). exact Hout. }
      destruct (Hdv s Hs) as [w Ew].
      { destruct (r_s _ _ _ _ HL1 s Hs) as [X1 X2]. rewrite X1, X2, map_length. apply pend_in; [exact (proj1 (ci_s _ _ _ _ _ _ _ _ _ Hci s Hs))|]. apply len_app_s. exact P2. }
      exists m. split; [exact Hm|]. rewrite E2. unfold r_to. rewrite flat_map_app, app_length. cbn [flat_map fst snd ro_rv xr_step]. rewrite app_nil_r. match goal with |- _ < _ + length (if ?c then _ else _) => replace c with true; [cbn; lia|] end. symmetry.
      apply ov_iff. exists s. split; [exact Hs|]. apply mvb_iff. rewrite Ew, (Hrd m Hm). repeat split; auto.
    Qed.

    Lemma r_mapped d fs fm is : Forall (fun i => forall m, m < NM -> ri_arv i m = true -> mapped m (fst (ri_ar i m))) is -> forall m, m < NM -> let b := xr_buf (final step (init d fs fm) is) m in sk b = KLat /\ (occ b = true -> mapped m (fst (sdat b))).
    Proof.
      clear. induction is as [|i is IH] using rev_ind; intros H m Hm; [split; [reflexivity|discriminate]|]. apply Forall_app in H. destruct H as [H1 H2]. rewrite final_snoc. cbn [xr_step fst xr_buf]; rewrite ?tab_eq; cbv beta. destruct (IH H1 m Hm) as [K1 K2]. split; [unfold stage_next; rewrite K1; reflexivity|].
      apply (buf_P (fun a => mapped m (fst a))); [exact K2|]. apply (Forall_inv H2 m Hm).
    Qed.
    Lemma mapped_env is : Forall (fun i : xr_in A B => forall m, m < NM -> ri_arv i m = true -> mapped m (fst (ri_ar i m))) is -> Forall r_env is.
    Proof. clear - Hreg. apply Forall_impl. intros i H m Hm Hv. destruct (H m Hm Hv) as (s & Hs & _ & Ho). destruct (proj1 Hreg s Hs) as (_ & _ & X). unfold owns in Ho. lia. Qed.
    Lemma r_prio_at d fs fm is s : xr_prio (final step (init d fs fm) is) s = onehot NM (length is mod NM).
    Proof.
      clear - HNM. induction is as [|i is IH] using rev_ind; [cbn; rewrite Nat.mod_0_l by lia; apply prio_init_onehot|]. rewrite final_snoc. cbn [xr_step fst xr_prio]; rewrite ?tab_eq; cbv beta. rewrite IH, rol1_onehot by (apply Nat.mod_upper_bound; lia). rewrite app_length. cbn [length]. f_equal. rewrite Nat.add_mod_idemp_l by lia. reflexivity.
    Qed.
    Lemma c88_fair d fs fm is js m : m < NM -> length js = NM ->
      Forall (fun i => forall m, m < NM -> ri_arv i m = true -> mapped m (fst (ri_ar i m))) (is ++ js) ->
      Forall (fun i => ri_arv i m = true /\ forall s, s < NS -> ri_ard i s = true) js ->
      (forall k, k < NM -> let t := trace step (init d fs fm) (is ++ firstn k js) in
        length (ar_from m t) < finished_o lst (r_to m t) + (DEPTH - 1) /\ forall s, s < NS -> length (ar_to s t) < finished lst (r_from s t) + (DEPTH - 1)) ->
      length (ar_from m (trace step (init d fs fm) is)) < length (ar_from m (trace step (init d fs fm) (is ++ js))).
    Proof.
      intros Hm Hl He Hjs Hfew. pose (k := (m + (NM - length is mod NM)) mod NM). assert (k < NM) as Hk by (apply Nat.mod_upper_bound; lia).
      assert ((length is + k) mod NM = m) as Ek. { unfold k. rewrite Nat.add_mod_idemp_r by lia. pose proof (Nat.mod_upper_bound (length is) NM ltac:(lia)) as X. rewrite <- Nat.add_mod_idemp_l by lia. replace (length is mod NM + (m + (NM - length is mod NM))) with (m + 1 * NM) by lia. rewrite Nat.mod_add by lia. apply Nat.mod_small. exact Hm. }
      destruct (nth_error js k) as [j|] eqn:Ej; [|apply nth_error_None in Ej; lia]. apply nth_error_split in Ej. destruct Ej as (a & b & Ejs & La). specialize (Hfew k Hk). assert (firstn k js = a) as Ea. { rewrite Ejs, firstn_app, La. rewrite Nat.sub_diag. cbn. rewrite app_nil_r. apply firstn_all2. lia. } rewrite Ea in Hfew.
      rewrite Ejs in He, Hjs. apply Forall_app in Hjs. destruct Hjs as [_ Hjs]. destruct (Forall_inv Hjs) as [Hv Hard]. rewrite app_assoc in He. apply Forall_app in He. destruct He as [He He'].
      destruct (ri_run lst d fs fm (is ++ a) (mapped_env _ He)) as [L HL]. destruct (r_mapped d fs fm (is ++ a) He m Hm) as [K1 K2].
      pose proof (r_prio_at d fs fm (is ++ a)) as Hpr. rewrite app_length, La, Ek in Hpr.
      set (q := final step (init d fs fm) (is ++ a)) in *. set (t := trace step (init d fs fm) (is ++ a)) in *. destruct Hfew as [Fm Fs].
      rewrite Ejs. assert (trace step (init d fs fm) (is ++ a ++ j :: b) = t ++ (j, snd (step q j)) :: trace step (fst (step q j)) b) as ->. { rewrite app_assoc, trace_app. fold t q. rewrite trace_cons. reflexivity. }
      assert (length (ar_from m (trace step (init d fs fm) is)) <= length (ar_from m t)) as Hle. { unfold t. rewrite trace_app. unfold ar_from. rewrite flat_map_app, app_length. lia. }
      unfold ar_from at 2. rewrite flat_map_app, app_length. cbn [flat_map fst snd]. rewrite app_length. fold (ar_from m t). rewrite Hv. cbn [andb ro_ard snd xr_step]. match goal with |- _ < _ + (length (if ?c then _ else _) + _) => replace c with true; [cbn; lia|] end. symmetry.
      unfold stage_rd. rewrite K1. destruct (occ (xr_buf q m)) eqn:Eo; [|reflexivity]. destruct (K2 eq_refl) as (s & Hs & Hc & Hown).
      destruct HL as [Hci _ HLm HLs]. destruct (HLm m Hm) as (B1 & B2 & B3). destruct (HLs s Hs) as (S1 & S2). specialize (Fs s Hs). rewrite B2, B3, finished_some, app_length, map_length in Fm. rewrite S1, S2, map_length in Fs.
      apply (prio_wins (xr_prio q) m _ _ _ _ _ s); auto.
      - intros E. apply (few_m lst L (xr_fs q) (xr_fm q)); auto. lia.
      - intros E. apply (few_s lst L (xr_fs q) (xr_fm q)); auto.
    Qed.
  End RL.

  Section WL.
    Context {A B R : Type}.
    Variables (lst : A -> bool) (tog : bool).
    Notation step := (@xw_step NM NS AW DEPTH conn region A B lst R tog).
    Notation init := (@xw_init NM DEPTH A B).
    Notation WI := (@WI A B R lst tog).
    Lemma w_seen q t Lw Lb i : WI q t Lw Lb -> seen lst (Lw1 lst tog q i Lw) (xw_fsw (fst (step q i))) (xw_fmw (fst (step q i))) /\ seen (@bl R) (Lb1 q i Lb) (xw_fsb (fst (step q i))) (xw_fmb (fst (step q i))).
    Proof.
      intros [Hw Hb _ _ _ _]. split.
      - apply seen_step with (1 := Hw); [apply wc_mv|apply wc_fs|apply wc_fm| |].
        + intros m Hm E. eexists _, _, _. split; [etransitivity; [apply tab_eq|cbv beta; reflexivity]|apply wc_popm; assumption].
        + intros s Hs E. eexists _, _, _. split; [etransitivity; [apply tab_eq|cbv beta; reflexivity]|apply wc_pops; assumption].
      - apply seen_step with (1 := Hb); [apply rc_mv|apply rc_fs|apply rc_fm| |].
        + intros m Hm E. eexists _, _, _. split; [etransitivity; [apply tab_eq|cbv beta; reflexivity]|apply rc_popm; assumption].
        + intros s Hs E. eexists _, _, _. split; [etransitivity; [apply tab_eq|cbv beta; reflexivity]|apply rc_pops; assumption].
    Qed.
    (** every register keeps its kind *)
    Lemma w_kind d fsw fmw fsb fmb w a is k : let q := final step (init d fsw fmw fsb fmb w a) is in sk (xw_buf q k) = KLat /\ sk (xw_wb q k) = KLat /\ sk (xw_ab q k) = KLat.
    Proof.
      clear. induction is as [|i is IH] using rev_ind; [repeat split|]. rewrite final_snoc. cbn [xw_step fst xw_buf xw_wb xw_ab]; rewrite ?tab_eq; cbv beta. destruct IH as (K1 & K2 & K3). unfold stage_next. rewrite K1, K2, K3. repeat split.
    Qed.
    Lemma finished_app {T} (f : T -> bool) l l' : finished f (l ++ l') = finished f l + finished f l'.
    Proof. clear. unfold finished. rewrite filter_app, app_length. reflexivity. Qed.
    Lemma finished_le {T} (f : T -> bool) l : finished f l <= length l.
    Proof. clear. unfold finished. induction l as [|x l IH]; cbn; [lia|]. destruct (f x); cbn; lia. Qed.
    Lemma finished_bl (l : list R) : finished bl l = length l.
    Proof. clear. unfold finished, bl. induction l as [|x l IH]; cbn; [reflexivity|]. rewrite IH. reflexivity. Qed.
    (** the words of the log after the words of a cycle *)
    Lemma w_view q t Lw Lb (i : xw_in A B R) : WI q t Lw Lb -> (forall m, m < NM -> in_order lst (of_m m (Lw1 lst tog q i Lw))) /\ (forall s, s < NS -> in_order lst (of_s s (Lw1 lst tog q i Lw))).
    Proof.
      intros [Hw _ _ _ _ _]. split.
      - intros m Hm. apply (view_m NM NS DEPTH conn region Hsh HNM HD lst Lw _ _ Hw _ _ (wc_mv _ _ _ _) (wc_fs _ _ _ _) (wc_fm _ _ _ _) m Hm).
      - intros s Hs. unfold Lw1. destruct (find (fun m => mvw (xw_fsw q) (xw_fmw q) (wvec tog q i) (wi_wrd i) m s) (ms NM)) as [m|] eqn:Ef.
        + apply find_seq_some in Ef. destruct Ef as [Hm Em]. destruct (wc_mv _ _ _ _ m s Hm Hs Em) as (_ & _ & _ & w & Ew). apply (view_s_in NM NS DEPTH conn region Hsh HNM HD lst Lw _ _ Hw _ _ (wc_mv _ _ _ _) (wc_fs _ _ _ _) (wc_fm _ _ _ _) m s w Hm Hs Em Ew).
        + rewrite (view_s_out NM NS DEPTH conn HNM HD lst Lw _ _ _ _ (wc_mv _ _ _ _) (wc_fs _ _ _ _) (wc_fm _ _ _ _) s Hs); [exact (proj1 (ci_s _ _ _ _ _ _ _ _ _ Hw s Hs))|]. intros m Hm. pose proof (find_none _ _ Ef m) as X. cbn in X. apply X, in_seq. lia.
    Qed.
    Lemma b_view q t Lw Lb i s : s < NS -> WI q t Lw Lb -> in_order bl (of_s s (Lb1 q i Lb)).
    Proof.
      intros Hs [_ Hb _ _ _ _]. unfold Lb1. destruct (find (fun m => mvr (xw_fsb q) (xw_fmb q) (wi_b i) (wi_brd i) m s) (ms NM)) as [m|] eqn:Ef.
      - apply find_seq_some in Ef. destruct Ef as [Hm Em]. destruct (rc_mv _ _ _ _ m s Hm Hs Em) as (_ & _ & _ & w & Ew). apply (view_s_in NM NS DEPTH conn region Hsh HNM HD bl Lb _ _ Hb _ _ (rc_mv _ _ _ _) (rc_fs _ _ _ _) (rc_fm _ _ _ _) m s w Hm Hs Em Ew).
      - rewrite (view_s_out NM NS DEPTH conn HNM HD bl Lb _ _ _ _ (rc_mv _ _ _ _) (rc_fs _ _ _ _) (rc_fm _ _ _ _) s Hs); [exact (proj1 (ci_s _ _ _ _ _ _ _ _ _ Hb s Hs))|]. intros m Hm. pose proof (find_none _ _ Ef m) as X. cbn in X. apply X, in_seq. lia.
    Qed.
    Lemma req_len {X Y} s (l : list (tx X B)) (l' : list (tx Y B)) : map req l = map req l' -> length (of_s s l) = length (of_s s l').
    Proof.
      clear. intros H. assert (forall Z (k : list (tx Z B)), length (of_s s k) = length (filter (fun y => snd (fst y) =? s) (map req k))) as E.
      { induction k as [|x k IH]; [reflexivity|]. cbn [of_s filter map req fst snd]. unfold of_s in *. destruct (tx_s x =? s); cbn [length]; rewrite IH; reflexivity. }
      rewrite !E, H. reflexivity.
    Qed.
    Lemma req_len_m {X Y} s (l : list (tx X B)) (l' : list (tx Y B)) : map req l = map req l' -> length (of_m s l) = length (of_m s l').
    Proof.
      clear. intros H. assert (forall Z (k : list (tx Z B)), length (of_m s k) = length (filter (fun y => fst (fst y) =? s) (map req k))) as E.
      { induction k as [|x k IH]; [reflexivity|]. cbn [of_m filter map req fst snd]. unfold of_m in *. destruct (tx_m x =? s); cbn [length]; rewrite IH; reflexivity. }
      rewrite !E, H. reflexivity.
    Qed.

    Lemma c89_live d fsw fmw fsb fmb w a is i1 i2 : Forall w_env (is ++ [i1]) ->
      let q := init d fsw fmw fsb fmb w a in let t0 := trace step q is in let t1 := trace step q (is ++ [i1]) in let t2 := trace step q (is ++ [i1; i2]) in
      (exists s, s < NS /\ length (b_from s t1) < length (aw_to s t0)) ->
      (forall m, m < NM -> (finished lst (w_from m t0) < length (aw_from m t0) -> wi_wv i1 m = true) /\ (finished lst (w_from m t1) < length (aw_from m t1) -> wi_wv i2 m = true) /\ wi_brd i2 m = true) ->
      (forall s, s < NS -> wi_ard i1 s = true /\ wi_wrd i2 s = true /\ (length (b_from s t1) < length (aw_to s t1) -> length (b_from s t1) < finished_o lst (w_to s t1) -> exists r, wi_b i2 s = Some r)) ->
      (exists s, s < NS /\ length (w_to s t1) < length (w_to s t2)) \/ (exists m, m < NM /\ length (b_to m t1) < length (b_to m t2)).
    Proof.
      intros He q t0 t1 t2 (s0 & Hs0 & Hout) Hmst Hslv. apply Forall_app in He. destruct He as [He He1]. destruct (wi_run lst tog d fsw fmw fsb fmb w a is He) as (Lw & Lb & HL). fold q in HL. fold t0 in HL.
      pose proof (fun k => w_kind d fsw fmw fsb fmb w a is k) as HK. cbv zeta in HK. fold q in HK.
      set (q0 := final step q is) in *. destruct (wi_step lst tog q0 t0 Lw Lb i1 HL (Forall_inv He1)) as (G & GB & HG & HGB & HL1). destruct (w_seen q0 t0 Lw Lb i1 HL) as [Sew Seb]. destruct (w_view q0 t0 Lw Lb i1 HL) as [Vm Vs]. pose proof (fun s Hs => b_view q0 t0 Lw Lb i1 s Hs HL) as Vb.
      assert (t1 = t0 ++ [(i1, snd (step q0 i1))]) as E1 by apply trace_snoc. rewrite <- E1 in HL1. set (q1 := fst (step q0 i1)) in *.
      assert (t2 = t1 ++ [(i2, snd (step q1 i2))]) as E2. { unfold t2, t1. change [i1; i2] with ([i1] ++ [i2]). rewrite app_assoc, trace_snoc. do 3 f_equal. rewrite final_snoc. reflexivity. }
      set (Lo := Lw1 lst tog q0 i1 Lw) in *. set (Lob := Lb1 q0 i1 Lb) in *.
      assert (map req Lo = map req Lw) as Rw by (unfold Lo, Lw1, L1; apply dall_req). assert (map req Lob = map req Lb) as Rb by (unfold Lob, Lb1, L1; apply dall_req).
      pose proof (w_ciw _ _ _ _ _ _ HL1) as Hciw. pose proof (w_cib _ _ _ _ _ _ HL1) as Hcib.

      assert (forall s, words (of_s s (Lo ++ G)) = words (of_s s Lo)) as Ws. { intros s. unfold of_s. rewrite filter_app. apply words_app. apply Forall_forall. intros x Hx. apply filter_In in Hx. rewrite Forall_forall in HG. apply HG, Hx. }
      assert (forall m, words (of_m m (Lo ++ G)) = words (of_m m Lo)) as Wm. { intros m. unfold of_m. rewrite filter_app. apply words_app. apply Forall_forall. intros x Hx. apply filter_In in Hx. rewrite Forall_forall in HG. apply HG, Hx. }
      assert (forall s, words (of_s s (Lob ++ GB)) = words (of_s s Lob)) as Wb. { intros s. unfold of_s. rewrite filter_app. apply words_app. apply Forall_forall. intros x Hx. apply filter_In in Hx. rewrite Forall_forall in HGB. apply HGB, Hx. }
      assert (forall m l, length (of_m m (l ++ G)) = length (of_m m l) + length (of_m m G)) as Wl by (intros m l; unfold of_m; rewrite filter_app; apply app_length).
      destruct (existsb (pend lst) Lo) eqn:Ep.
      - left. apply existsb_exists in Ep. destruct (at_front lst Lo G _ _ Hciw Sew Ep) as (m & s & Hm & Hs & Hc & F1 & F2 & P1 & P2). exists s. split; [exact Hs|]. rewrite E2. unfold w_to. rewrite flat_map_app, app_length. cbn [flat_map fst snd wo_wv xw_step]. rewrite app_nil_r. match goal with |- _ < _ + length (if ?c then _ else _) => replace c with true; [cbn; lia|] end. symmetry.
        apply ov_iff. exists m. split; [exact Hm|]. apply mvb_iff. split; [exact Hc|]. split; [|split; [apply Hslv; exact Hs|split; [exact F1|exact F2]]].
        fold (wvec tog q1 i2 m). unfold wvec. match goal with |- some (if ?c then _ else _) = true => replace c with true; [reflexivity|] end. symmetry. apply pend_in_m in P1; [|apply Vm; exact Hm].
        destruct (Hmst m Hm) as (O1 & O2 & _). destruct (w_m _ _ _ _ _ _ HL m Hm) as (_ & A1 & A2 & _). destruct (w_m _ _ _ _ _ _ HL1 m Hm) as (_ & A3 & A4 & _). rewrite Wm in A4. unfold b_vld, bc in *. destruct tog.
        + destruct (occ (xw_wb q1 m)) eqn:Eo; [reflexivity|]. exfalso. cbn [opt] in A4. rewrite app_nil_r in A4.
          assert (wi_wv i1 m = true) as Hv. { apply O1. apply Nat.le_lt_trans with (finished lst (w_from m t1)).
            - rewrite E1. unfold w_from. rewrite flat_map_app, finished_app. lia.
            - rewrite A4, A1, app_length, map_length. rewrite (req_len_m m Lo Lw Rw) in P1. lia. }
          revert Eo. unfold q1. cbn [xw_step fst xw_wb]; rewrite ?tab_eq; cbv beta. unfold stage_next. rewrite (proj1 (proj2 (HK m))). cbn [occ]. rewrite Hv. destruct (occ (xw_wb q0 m)); [|discriminate]. rewrite andb_false_r. discriminate.
        + apply O2. rewrite app_nil_r in A4. rewrite A4, A3, app_length, map_length, Wl. lia.
      - right. assert (forall s, filter (pend lst) (of_s s Lo) = []) as Hno. { intros s. destruct (filter (pend lst) (of_s s Lo)) as [|x r] eqn:E; [reflexivity|]. apply not_true_iff_false in Ep. contradiction Ep. apply existsb_exists. apply (pend_some lst s). congruence. }
        assert (forall s, s < NS -> words (of_s s Lob) = b_from s t1) as Hb1 by (intros s Hs; rewrite <- Wb; symmetry; apply (w_s _ _ _ _ _ _ HL1 s Hs)).
        destruct (at_front bl Lob GB _ _ Hcib Seb) as (m & s & Hm & Hs & Hc & F1 & F2 & P1 & P2).
        { apply (pend_some bl s0). apply pend_in; [apply Vb; exact Hs0|]. rewrite finished_bl, Hb1 by exact Hs0. rewrite (req_len s0 Lob Lb Rb), <- (req_len s0 Lw Lb (w_req _ _ _ _ _ _ HL)). destruct (w_s _ _ _ _ _ _ HL s0 Hs0) as (X & _). apply (f_equal (@length _)) in X. rewrite map_length, app_length in X. lia. }
        destruct (Hslv s Hs) as (Ha1 & _ & Hb). apply pend_in in P2; [|apply Vb; exact Hs]. rewrite finished_bl, Hb1 in P2 by exact Hs. rewrite (req_len s Lob Lb Rb), <- (req_len s Lw Lb (w_req _ _ _ _ _ _ HL)) in P2.
        destruct Hb as [r Er].
        { apply Nat.lt_le_trans with (1 := P2). destruct (w_s _ _ _ _ _ _ HL s Hs) as (X & _). apply (f_equal (@length _)) in X. rewrite map_length, app_length in X. rewrite X, E1. unfold aw_to at 2. rewrite flat_map_app, app_length. fold (aw_to s t0). apply Nat.add_le_mono_l. cbn [flat_map fst snd wo_awv xw_step]. rewrite app_nil_r, Ha1, andb_true_r. unfold bc, b_vld. destruct tog; [|cbn; lia]. destruct (occ (xw_ab q0 s)); cbn; lia. }
        { apply Nat.lt_le_trans with (1 := P2). destruct (w_s _ _ _ _ _ _ HL1 s Hs) as (_ & X & _). rewrite X, finished_some, Ws. pose proof (pend_count lst (of_s s Lo) (Vs s Hs)) as Y. rewrite Hno in Y. cbn in Y. rewrite <- (req_len s Lo Lw Rw). lia. }
        exists m. split; [exact Hm|]. rewrite E2. unfold b_to. rewrite flat_map_app, app_length. cbn [flat_map fst snd wo_bv xw_step]. rewrite app_nil_r. match goal with |- _ < _ + length (if ?c then _ else _) => replace c with true; [cbn; lia|] end. symmetry.
        apply ov_iff. exists s. split; [exact Hs|]. apply mvb_iff. rewrite Er. destruct (Hmst m Hm) as (_ & _ & ->). repeat split; auto.
    Qed.

    Lemma w_mapped d fsw fmw fsb fmb w a is : Forall (fun i : xw_in A B R => forall m, m < NM -> wi_awv i m = true -> mapped m (fst (wi_aw i m))) is -> forall m, m < NM -> let b := xw_buf (final step (init d fsw fmw fsb fmb w a) is) m in occ b = true -> mapped m (fst (sdat b)).
    Proof.
      clear. induction is as [|i is IH] using rev_ind; intros H m Hm; [discriminate|]. apply Forall_app in H. destruct H as [H1 H2]. rewrite final_snoc. cbn [xw_step fst xw_buf]; rewrite ?tab_eq; cbv beta. pose proof (IH H1 m Hm) as K2.
      apply (buf_P (fun a => mapped m (fst a))); [exact K2|]. apply (Forall_inv H2 m Hm).
    Qed.
    Lemma w_mapped_env is : Forall (fun i : xw_in A B R => forall m, m < NM -> wi_awv i m = true -> mapped m (fst (wi_aw i m))) is -> Forall w_env is.
    Proof. clear - Hreg. apply Forall_impl. intros i H m Hm Hv. destruct (H m Hm Hv) as (s & Hs & _ & Ho). destruct (proj1 Hreg s Hs) as (_ & _ & X). unfold owns in Ho. lia. Qed.
    Lemma w_prio_at d fsw fmw fsb fmb w a is s : xw_prio (final step (init d fsw fmw fsb fmb w a) is) s = onehot NM (length is mod NM).
    Proof.
      clear - HNM. induction is as [|i is IH] using rev_ind; [cbn; rewrite Nat.mod_0_l by lia; apply prio_init_onehot|]. rewrite final_snoc. cbn [xw_step fst xw_prio]; rewrite ?tab_eq; cbv beta. rewrite IH, rol1_onehot by (apply Nat.mod_upper_bound; lia). rewrite app_length. cbn [length]. f_equal. rewrite Nat.add_mod_idemp_l by lia. reflexivity.
    Qed.
    Lemma c89_fair d fsw fmw fsb fmb w a is js m : m < NM -> length js = NM -> let q0 := init d fsw fmw fsb fmb w a in
      Forall (fun i => forall m, m < NM -> wi_awv i m = true -> mapped m (fst (wi_aw i m))) (is ++ js) ->
      Forall (fun i => wi_awv i m = true /\ forall s, s < NS -> wi_ard i s = true) js ->
      (forall k, k < NM -> let t := trace step q0 (is ++ firstn k js) in
        S (length (aw_from m t)) < finished lst (w_from m t) + (DEPTH - 1) /\ S (length (aw_from m t)) < length (b_to m t) + (DEPTH - 1) /\
        forall s, s < NS -> S (length (aw_to s t)) < finished_o lst (w_to s t) + (DEPTH - 1) /\ S (length (aw_to s t)) < length (b_from s t) + (DEPTH - 1)) ->
      length (aw_from m (trace step q0 is)) < length (aw_from m (trace step q0 (is ++ js))).
    Proof.
      intros Hm Hl q0 He Hjs Hfew. pose (k := (m + (NM - length is mod NM)) mod NM). assert (k < NM) as Hk by (apply Nat.mod_upper_bound; lia).
      assert ((length is + k) mod NM = m) as Ek. { unfold k. rewrite Nat.add_mod_idemp_r by lia. pose proof (Nat.mod_upper_bound (length is) NM ltac:(lia)) as X. rewrite <- Nat.add_mod_idemp_l by lia. replace (length is mod NM + (m + (NM - length is mod NM))) with (m + 1 * NM) by lia. rewrite Nat.mod_add by lia. apply Nat.mod_small. exact Hm. }
      destruct (nth_error js k) as [j|] eqn:Ej; [|apply nth_error_None in Ej; lia]. apply nth_error_split in Ej. destruct Ej as (aa & b & Ejs & La). specialize (Hfew k Hk). assert (firstn k js = aa) as Ea. { rewrite Ejs, firstn_app, La. rewrite Nat.sub_diag. cbn. rewrite app_nil_r. apply firstn_all2. lia. } rewrite Ea in Hfew.
      rewrite Ejs in He, Hjs. apply Forall_app in Hjs. destruct Hjs as [_ Hjs]. destruct (Forall_inv Hjs) as [Hv Hard]. rewrite app_assoc in He. apply Forall_app in He. destruct He as [He He'].
      destruct (wi_run lst tog d fsw fmw fsb fmb w a (is ++ aa) (w_mapped_env _ He)) as (Lw & Lb & HL). pose proof (w_mapped d fsw fmw fsb fmb w a (is ++ aa) He m Hm) as K2. pose proof (fun k => w_kind d fsw fmw fsb fmb w a (is ++ aa) k) as HK. cbv zeta in HK, K2.
      pose proof (w_prio_at d fsw fmw fsb fmb w a (is ++ aa)) as Hpr. rewrite app_length, La, Ek in Hpr. fold q0 in HL, K2, HK, Hpr.
      set (q := final step q0 (is ++ aa)) in *. set (t := trace step q0 (is ++ aa)) in *. destruct Hfew as (Fm & Fb & Fs).
      rewrite Ejs. assert (trace step q0 (is ++ aa ++ j :: b) = t ++ (j, snd (step q j)) :: trace step (fst (step q j)) b) as ->. { rewrite app_assoc, trace_app. fold t q. rewrite trace_cons. reflexivity. }
      assert (length (aw_from m (trace step q0 is)) <= length (aw_from m t)) as Hle. { unfold t. rewrite trace_app. unfold aw_from. rewrite flat_map_app, app_length. lia. }
      unfold aw_from at 2. rewrite flat_map_app, app_length. cbn [flat_map fst snd]. rewrite app_length. fold (aw_from m t). rewrite Hv. cbn [andb wo_ard snd xw_step]. match goal with |- _ < _ + (length (if ?c then _ else _) + _) => replace c with true; [cbn; lia|] end. symmetry.
      unfold stage_rd at 1. rewrite (proj1 (HK m)). destruct (occ (xw_buf q m)) eqn:Eo; [|reflexivity]. destruct (K2 eq_refl) as (s & Hs & Hc & Hown).
      destruct HL as [Hcw Hcb Hrq _ HLm HLs]. destruct (HLm m Hm) as (B1 & B2 & B3 & B4). destruct (HLs s Hs) as (S1 & S2 & S3). destruct (Fs s Hs) as [Fs1 Fs2]. rewrite B2, app_length, map_length in Fm, Fb. rewrite B3, finished_app in Fm. rewrite B4, map_length in Fb. rewrite S2, finished_some in Fs1. rewrite S3 in Fs2.
      pose proof (finished_le lst (bc tog (xw_wb q m))) as X1. pose proof (bc_len tog (xw_wb q m)) as X2. pose proof (bc_len tog (xw_ab q s)) as X3. apply (f_equal (@length _)) in S1. rewrite map_length, app_length in S1. pose proof (req_len s Lw Lb Hrq) as Y1. pose proof (req_len_m m Lw Lb Hrq) as Y2.
      assert ((if tog then 1 else 0) <= 1) as X4 by (destruct tog; lia).
      apply (prio_wins (xw_prio q) m _ _ _ _ _ s); auto.
      - intros E. apply andb_true_intro. split; [apply (few_m lst Lw (xw_fsw q) (xw_fmw q)); auto; lia|apply (few_m bl Lb (xw_fsb q) (xw_fmb q)); auto; rewrite finished_bl; lia].
      - intros E. apply andb_true_intro. split; [apply (few_s lst Lw (xw_fsw q) (xw_fmw q)); auto; lia|apply (few_s bl Lb (xw_fsb q) (xw_fmb q)); auto; rewrite finished_bl; lia].
      - unfold b_rd, stage_rd. rewrite (proj2 (proj2 (HK s))), (Hard s Hs). destruct tog, (occ (xw_ab q s)); reflexivity.
    Qed.
  End WL.
End Xb.
