(** AxiInterconnectMatrixR and AxiInterconnectMatrixW: addresses in any configuration, pairs connected only to each other, unmapped addresses, stability of the address channels. *)
From Verif Require Import Base BaseFacts FifoModel HsRegModel JoinSplitModel OneHotModel EpModel XbarModel XbarSpec.
From Verif Require Import StreamFacts HsRegProofs JoinSplitSpec JoinSplitProofs OneHotProofs FifoProofs HsFifoProofs EpProofs XbarLog XbarChan XbarProofs.

(** * a pair of an input and an output connected only to each other *)
Section Pair.
  Context {A : Type}.
  Variables (NI NO : nat) (C : nat -> nat -> bool) (hi ho : nat -> bool) (oi oo : nat -> bool * option nat) (dv : nat -> option A) (ordy : nat -> bool) (i o : nat).
  Hypothesis Hi : i < NI. Hypothesis Ho : o < NO. Hypothesis Hc : C o i = true. Hypothesis Hhi : hi i = false. Hypothesis Hho : ho o = false.
  Hypothesis Hui : forall i', i' < NI -> C o i' = true -> i' = i.
  Hypothesis Huo : forall o', o' < NO -> C o' i = true -> o' = o.
  Lemma pair_irdy : c_irdy NO C hi ho oi oo ordy i = ordy o.
  Proof.
    unfold c_irdy, c_sel. rewrite Hhi. apply eq_iff_eq_true. rewrite any_seq. split.
    - intros (o' & H1 & H2). rewrite !andb_true_iff in H2. destruct H2 as (((H2 & H3) & _) & _). rewrite <- (Huo o' H1 H2). exact H3.
    - intros H. exists o. split; [exact Ho|]. rewrite Hc, H, Hho. reflexivity.
  Qed.
  Lemma pair_ov : c_ov NI C hi ho oi oo dv o = some (dv i).
  Proof.
    unfold c_ov, c_selv. rewrite Hho. apply eq_iff_eq_true. rewrite any_seq. split.
    - intros (i' & H1 & H2). rewrite !andb_true_iff in H2. destruct H2 as (((H2 & H3) & _) & _). rewrite <- (Hui i' H1 H2). exact H3.
    - intros H. exists i. split; [exact Hi|]. rewrite Hc, H, Hhi. reflexivity.
  Qed.
  Lemma pair_data : c_data NI C ho oo dv o = dv i.
  Proof.
    clear - Hi Hc Hho Hui. unfold c_data. rewrite Hho. destruct (filter (C o) (seq 0 NI)) as [|i' r] eqn:E.
    - assert (In i (filter (C o) (seq 0 NI))) as H by (apply filter_In; split; [apply in_seq; lia|exact Hc]). rewrite E in H. contradiction.
    - assert (In i' (filter (C o) (seq 0 NI))) as H by (rewrite E; left; reflexivity). apply filter_In in H. destruct H as [H H']. apply in_seq in H. rewrite (Hui i'); [reflexivity|lia|exact H'].
  Qed.
End Pair.

Lemma le1_of_unique (f : nat -> bool) n a : (forall b, b < n -> f b = true -> b = a) -> 1 <? length (filter f (seq 0 n)) = false.
Proof.
  intros H. apply Nat.ltb_ge. assert (NoDup (filter f (seq 0 n))) as Hd by (apply NoDup_filter, seq_NoDup). assert (forall x, In x (filter f (seq 0 n)) -> x = a) as Hx by (intros x Hx; apply filter_In in Hx; destruct Hx as [Hx Hf]; apply in_seq in Hx; apply H; [lia|exact Hf]).
  destruct (filter f (seq 0 n)) as [|x [|y r]]; cbn; [lia|lia|]. exfalso. pose proof (Hx x (or_introl eq_refl)). pose proof (Hx y (or_intror (or_introl eq_refl))). inversion Hd as [|? ? Hn _]; subst. apply Hn. left. congruence.
Qed.

Section Xb.
  Variables (NM NS AW DEPTH : nat) (conn : nat -> nat -> bool) (region : nat -> nat * nat).

  Section RE.
    Context {A B : Type}.
    Variable lst : A -> bool.
    Notation step := (@xr_step NM NS AW DEPTH conn region A B lst).
    Lemma r_pair q0 is m s : m < NM -> s < NS -> alone NM NS conn m s -> let t := trace step q0 is in r_to m t = map Some (r_from s t).
    Proof.
      intros Hm Hs (Hc & U1 & U2) t. unfold t, r_to, r_from. clear t. revert q0. induction is as [|i is IH]; intros q0; [reflexivity|]. rewrite trace_cons. cbn [flat_map]. rewrite map_app, <- IH. f_equal. cbn [fst snd xr_step ro_rv ro_r ro_rrd].
      assert (multi_s NS conn m = false) as E1 by (apply le1_of_unique with s; exact U1). assert (multi_m NM conn s = false) as E2 by (apply (le1_of_unique (fun m => conn m s)) with m; exact U2).
      rewrite (pair_irdy NM conn _ _ _ _ (ri_rrd i) s m Hm Hc E2 E1 U2), (pair_ov NS conn _ _ _ _ (ri_r i) s m Hs Hc E2 E1 U1), (pair_data NS conn _ _ (ri_r i) s m Hs Hc E1 U1).
      destruct (ri_r i s); cbn; [destruct (ri_rrd i m); reflexivity|reflexivity].
    Qed.
  End RE.
  Section WE.
    Context {A B R : Type}.
    Variables (lst : A -> bool) (tog : bool).
    Notation step := (@xw_step NM NS AW DEPTH conn region A B lst R tog).
    Lemma w_pair q0 is m s : m < NM -> s < NS -> alone NM NS conn m s -> bc tog (xw_wb q0 m) = [] -> let t := trace step q0 is in b_to m t = map Some (b_from s t) /\
      exists sent inside, w_from m t = sent ++ inside /\ length inside <= (if tog then 1 else 0) /\ w_to s t = map Some sent.
    Proof.
      intros Hm Hs (Hc & U1 & U2) Hb t. assert (multi_s NS conn m = false) as E1 by (apply le1_of_unique with s; exact U1). assert (multi_m NM conn s = false) as E2 by (apply (le1_of_unique (fun m => conn m s)) with m; exact U2). split.
      - unfold t, b_to, b_from. clear t Hb. revert q0. induction is as [|i is IH]; intros q0; [reflexivity|]. rewrite trace_cons. cbn [flat_map]. rewrite map_app, <- IH. f_equal. cbn [fst snd xw_step wo_bv wo_b wo_brd].
        rewrite (pair_irdy NM conn _ _ _ _ (wi_brd i) s m Hm Hc E2 E1 U2), (pair_ov NS conn _ _ _ _ (wi_b i) s m Hs Hc E2 E1 U1), (pair_data NS conn _ _ (wi_b i) s m Hs Hc E1 U1).
        destruct (wi_b i s); cbn; [destruct (wi_brd i m); reflexivity|reflexivity].
      - assert (exists sent, bc tog (xw_wb q0 m) ++ w_from m t = sent ++ bc tog (xw_wb (final step q0 is) m) /\ w_to s t = map Some sent) as (sent & H1 & H2).
        { unfold t, w_from, w_to. clear t Hb. revert q0. induction is as [|i is IH]; intros q0; [exists []; rewrite app_nil_r; split; reflexivity|]. destruct (IH (fst (step q0 i))) as (sent & I1 & I2). rewrite trace_cons, final_cons. cbn [flat_map]. rewrite I2.
          pose (rd := c_irdy NS (fun s m => conn m s) (multi_s NS conn) (multi_m NM conn) (fun m => f_out (xw_fsw q0 m)) (fun s => f_out (xw_fmw q0 s)) (wi_wrd i) m).
          exists (opt (b_vld tog (xw_wb q0 m) (wi_wv i m) && rd) (b_dat tog (xw_wb q0 m) (wi_w i m)) ++ sent). split.
          - cbn [fst snd xw_step wo_wrd]. fold rd. fold (opt (wi_wv i m && b_rd tog (xw_wb q0 m) rd) (wi_w i m)). rewrite app_assoc, bc_law, <- !app_assoc. f_equal. etransitivity; [|exact I1]. apply (f_equal (fun b => bc tog b ++ _)). symmetry. exact (tab_eq _ _ m).
          - rewrite map_app. f_equal. unfold rd. cbn [fst snd xw_step wo_wv wo_w]. rewrite (pair_irdy NS (fun s m => conn m s) _ _ _ _ (wi_wrd i) m s Hs Hc E1 E2 U1), (pair_ov NM (fun s m => conn m s) _ _ _ _ _ m s Hm Hc E1 E2 U2), (pair_data NM (fun s m => conn m s) _ _ _ m s Hm Hc E2 U2).
            destruct (b_vld tog (xw_wb q0 m) (wi_wv i m)); cbn; [destruct (wi_wrd i s); reflexivity|reflexivity]. }
        rewrite Hb in H1. cbn [app] in H1. exists sent. eexists. split; [exact H1|]. split; [apply bc_len|exact H2].
    Qed.
    (** * the register of AW keeps what it offers *)
    Lemma aw_stable q0 is i1 i2 s : tog = true -> (forall s, sk (xw_ab q0 s) = KLat) -> let q := final step q0 is in let o1 := snd (step q i1) in let o2 := snd (step (fst (step q i1)) i2) in
      wo_awv o1 s = true -> wi_ard i1 s = false -> wo_awv o2 s = true /\ wo_aw o2 s = wo_aw o1 s.
    Proof.
      intros -> Hk q o1 o2 Hv Hr. assert (sk (xw_ab q s) = KLat) as K. { unfold q. clear - Hk. induction is as [|i is IH] using rev_ind; [apply Hk|]. rewrite final_snoc. cbn [xw_step fst xw_ab]; rewrite ?tab_eq; cbv beta. unfold stage_next. rewrite IH. reflexivity. }
      unfold o1, o2 in *. cbn [xw_step fst snd wo_awv wo_aw xw_ab] in *; rewrite ?tab_eq in *; cbv beta in *. unfold b_vld, b_dat in *. unfold stage_next. rewrite K, Hv, Hr. rewrite andb_false_r. cbn. split; reflexivity.
    Qed.
    Lemma aw_stays_run q0 is s : tog = true -> (forall s, sk (xw_ab q0 s) = KLat) -> aw_stays s (trace step q0 is).
    Proof.
      intros Ht Hk k c c' H1 H2 Hv Hr. apply nth_error_split in H1. destruct H1 as (a & b & E & La). assert (exists b', b = c' :: b') as (b' & ->). { rewrite E in H2. rewrite nth_error_app2 in H2 by lia. rewrite La in H2. replace (S k - k) with 1 in H2 by lia. cbn in H2. destruct b; [discriminate|]. injection H2 as ->. eauto. }
      assert (exists is0 i1 i2 is1, is = is0 ++ i1 :: i2 :: is1 /\ c = (i1, snd (step (final step q0 is0) i1)) /\ c' = (i2, snd (step (fst (step (final step q0 is0) i1)) i2))) as (is0 & i1 & i2 & is1 & _ & Ec & Ec').
      { clear - E. revert q0 a E. induction is as [|i is IH]; intros q0 a E; [destruct a; discriminate|]. rewrite trace_cons in E. destruct a as [|x a].
        - injection E as E1 E2. destruct is as [|i' is]; [discriminate|]. rewrite trace_cons in E2. injection E2 as E2 E3. exists [], i, i', is. split; [reflexivity|]. split; [symmetry; exact E1|symmetry; exact E2].
        - injection E as _ E. destruct (IH _ _ E) as (is0 & i1 & i2 & is1 & H1 & H2 & H3). exists (i :: is0), i1, i2, is1. rewrite H1. split; [reflexivity|]. rewrite final_cons. auto. }
      subst c c'. exact (aw_stable q0 is0 i1 i2 s Ht Hk Hv Hr).
    Qed.
  End WE.

  Hypothesis Hreg : regions_ok AW NS region.
  Hypothesis HNM : 0 < NM.
  Hypothesis HD : 2 <= DEPTH.
  Section RA.
    Context {A B : Type}.
    Variable lst : A -> bool.
    Notation step := (@xr_step NM NS AW DEPTH conn region A B lst).
    Lemma r_addr d fs fm is : Forall (r_env NM AW) is -> let t := trace step (xr_init NM DEPTH d fs fm) is in
      exists L : list (tx A B), sent_right NM NS conn region L /\
        (forall m, m < NM -> exists inside, ar_from m t = map tx_a (of_m m L) ++ inside /\ length inside <= 1) /\ (forall s, s < NS -> ar_to s t = map (at_slave region) (of_s s L)).
    Proof.
      intros He t. cut (exists L : list (tx A B), let q := final step (xr_init NM DEPTH d fs fm) is in sent_right NM NS conn region L /\ (exists p, p < NM /\ forall s, xr_prio q s = onehot NM p) /\
        (forall m, m < NM -> (occ (xr_buf q m) = true -> fst (sdat (xr_buf q m)) < 2 ^ AW) /\ ar_from m t = map tx_a (of_m m L) ++ opt (occ (xr_buf q m)) (sdat (xr_buf q m))) /\ (forall s, s < NS -> ar_to s t = map (at_slave region) (of_s s L))).
      { intros (L & H1 & _ & H2 & H3). exists L. split; [exact H1|]. split; [|exact H3]. intros m Hm. destruct (H2 m Hm) as [_ E]. eexists. split; [exact E|]. destruct (occ _); cbn; lia. }
      unfold t. clear t. induction is as [|i is IH] using rev_ind.
      - exists []. cbn. split; [constructor|]. split; [exists 0; split; [exact HNM|intros s; apply prio_init_onehot]|]. split; [intros m Hm; split; [discriminate|reflexivity]|reflexivity].
      - apply Forall_app in He. destruct He as [He He']. apply Forall_inv in He'. destruct (IH He) as (L & Hr & (p & Hp & Hpr) & Hm & Hs). clear IH. cbv zeta. rewrite final_snoc, trace_snoc. set (q := final step (xr_init NM DEPTH d fs fm) is) in *. set (t := trace step (xr_init NM DEPTH d fs fm) is) in *.
        set (av := fun m => occ (xr_buf q m)). set (ad := fun m => sdat (xr_buf q m)). set (osr := fun m => f_rdy (xr_fs q m)). set (omr := fun s => f_rdy (xr_fm q s)).
        assert (forall m, m < NM -> av m = true -> fst (ad m) < 2 ^ AW) as Ha by (intros m Hl; apply Hm; exact Hl).
        pose (G := grants NM NS AW conn region (A := A) (xr_prio q) av ad (ri_ard i) osr omr). exists (L ++ G).
        pose proof (grants_ok NM NS AW DEPTH conn region Hreg HNM HD (A := A) (xr_prio q) p av ad (ri_ard i) osr omr Hp Hpr Ha) as HG. fold G in HG.
        pose proof (fun m => grants_m NM NS AW DEPTH conn region Hreg HNM HD (A := A) (xr_prio q) p av ad (ri_ard i) osr omr Hp Hpr Ha m) as Gm. fold G in Gm.
        pose proof (fun s => grants_s NM NS AW DEPTH conn region HNM HD (A := A) (xr_prio q) p av ad (ri_ard i) osr omr Hp Hpr Ha s) as Gs. fold G in Gs.
        pose proof (fun s => gr_cases NM NS AW conn region (A := A) (xr_prio q) p av ad (ri_ard i) osr omr Hp Hpr s) as Gc.
        split; [apply Forall_app; split; [exact Hr|exact (proj2 HG)]|]. split; [|split].
        + exists ((p + 1) mod NM). split; [apply Nat.mod_upper_bound; lia|]. intros s. cbn [xr_step fst xr_prio]; rewrite ?tab_eq; cbv beta. rewrite Hpr. apply rol1_onehot. exact Hp.
        + intros m Hl. destruct (Hm m Hl) as (M1 & M2). cbn [xr_step fst xr_buf]; rewrite ?tab_eq; cbv beta. fold av ad osr omr. split; [apply (buf_P (fun a => fst a < 2 ^ AW)); auto|]. unfold ar_from in *. rewrite flat_map_app, M2. cbn [flat_map fst snd ro_ard xr_step]. fold av ad osr omr. rewrite app_nil_r.
          unfold of_m. rewrite filter_app. fold (of_m m L) (of_m m G). rewrite map_app.
          fold (opt (ri_arv i m && stage_rd (xr_buf q m) (x_mrd NM NS AW conn region (xr_prio q) av ad (ri_ard i) osr omr m)) (ri_ar i m)). rewrite <- !app_assoc. f_equal. rewrite stage_law. f_equal.
          destruct (Gm m Hl) as [[Er ->]|(s & _ & _ & Er & Ev & -> & _)]; rewrite Er; [rewrite andb_false_r; reflexivity|]. change (occ (xr_buf q m)) with (av m). rewrite Ev. reflexivity.
        + intros s Hl. pose proof (Hs s Hl) as S1. unfold ar_to in *. rewrite flat_map_app, S1. cbn [flat_map fst snd ro_arv ro_ar xr_step]. fold av ad osr omr. rewrite app_nil_r.
          unfold of_s. rewrite filter_app. fold (of_s s L) (of_s s G). rewrite map_app. f_equal. rewrite (Gs s Hl). destruct (Gc s Hl) as [[Er ->]|(m & Hml & Eb & Er & -> & Er1 & Er2)]; rewrite Er; [reflexivity|]. rewrite (saddr_is NM NS AW DEPTH conn region Hreg HNM HD (xr_prio q) p av ad (ri_ard i) osr omr Hp Hpr Ha s m Hml Hl Eb Er1). reflexivity.
    Qed.
    (** * an address which belongs to no slave of the master *)
    Lemma r_unmapped q i m : m < NM -> sk (xr_buf q m) = KLat -> occ (xr_buf q m) = true -> fst (sdat (xr_buf q m)) < 2 ^ AW -> ~ mapped NS conn region m (fst (sdat (xr_buf q m))) ->
      ro_ard (snd (step q i)) m = false /\ (sk (xr_buf (fst (step q i)) m) = KLat /\ occ (xr_buf (fst (step q i)) m) = true /\ sdat (xr_buf (fst (step q i)) m) = sdat (xr_buf q m)).
    Proof.
      intros Hm Hk Ho Hb Hn. cbn [xr_step fst snd ro_ard xr_buf]; rewrite ?tab_eq; cbv beta. match goal with |- stage_rd _ ?x = _ /\ _ => assert (x = false) as E end.
      { unfold x_mrd. apply andb_false_iff. left. apply not_true_iff_false. unfold x_mrd0, ss. rewrite any_seq. intros (s & Hs & H). rewrite !andb_true_iff in H. destruct H as (Hc & (H & _) & _). unfold x_arb, x_vld, x_en in H. rewrite !andb_true_iff in H. destruct H as (_ & (_ & _ & H) & _).
        apply (hit_iff NM NS AW DEPTH region Hreg HNM HD s _ Hs) in H; [|exact Hb]. apply Hn. exists s. auto. }
      rewrite E. unfold stage_rd, stage_next. rewrite Hk, Ho. cbn. rewrite andb_false_r. repeat split.
    Qed.
    Lemma c88_unmapped d fs fm is i m js : m < NM -> let q := final step (xr_init NM DEPTH d fs fm) is in
      ri_arv i m = true -> ro_ard (snd (step q i)) m = true -> fst (ri_ar i m) < 2 ^ AW -> ~ mapped NS conn region m (fst (ri_ar i m)) ->
      Forall (fun o => ro_ard o m = false) (outs step (fst (step q i)) js).
    Proof.
      intros Hm q Hv Hr Hb Hn. assert (sk (xr_buf q m) = KLat) as K. { unfold q. clear. induction is as [|i is IH] using rev_ind; [reflexivity|]. rewrite final_snoc. cbn [xr_step fst xr_buf]; rewrite ?tab_eq; cbv beta. unfold stage_next. rewrite IH. reflexivity. }
      set (q1 := fst (step q i)). assert (sk (xr_buf q1 m) = KLat /\ occ (xr_buf q1 m) = true /\ sdat (xr_buf q1 m) = ri_ar i m) as H.
      { unfold q1. cbn [xr_step fst snd xr_buf ro_ard] in *; rewrite ?tab_eq in *; cbv beta in *. match goal with H : stage_rd _ ?x = true |- _ => set (rd := x) in * end. unfold stage_rd in Hr. unfold stage_next. rewrite K in *. cbn. rewrite Hv. destruct (occ (xr_buf q m)); [rewrite Hr|]; repeat split. }
      revert H. generalize q1. induction js as [|j js IH]; intros q2 (H1 & H2 & H3); [constructor|]. destruct (r_unmapped q2 j m Hm H1 H2) as (R1 & R2 & R3 & R4); [rewrite H3; exact Hb|rewrite H3; exact Hn|].
      unfold outs. cbn [run]. destruct (step q2 j) as [q3 o3] eqn:E. cbn [fst snd] in *. destruct (run step q3 js) as [q4 os] eqn:E4. cbn [snd]. constructor; [exact R1|]. assert (outs step q3 js = os) as <- by (unfold outs; rewrite E4; reflexivity). apply IH. split; [exact R2|]. split; [exact R3|]. rewrite R4. exact H3.
    Qed.
  End RA.
End Xb.
