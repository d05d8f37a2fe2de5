(** The address crossbar and one data channel of XbarModel.v. *)
From Verif Require Import Base BaseFacts FifoModel HsRegModel JoinSplitModel OneHotModel EpModel XbarModel XbarSpec.
From Verif Require Import JoinSplitSpec JoinSplitProofs OneHotProofs FifoProofs HsFifoProofs EpProofs XbarLog.

Lemma le1_unique {T} (f : T -> bool) l a b : length (filter f l) <= 1 -> In a l -> In b l -> f a = true -> f b = true -> a = b.
Proof.
  intros H Ha Hb Fa Fb. assert (In a (filter f l)) as Ia by (apply filter_In; auto). assert (In b (filter f l)) as Ib by (apply filter_In; auto).
  destruct (filter f l) as [|x [|y r]]; cbn in *; [contradiction| |lia]. destruct Ia as [<-|[]], Ib as [<-|[]]. reflexivity.
Qed.
Lemma two_gt1 (f : nat -> bool) n a b : a < n -> b < n -> a <> b -> f a = true -> f b = true -> 1 <? length (filter f (seq 0 n)) = true.
Proof.
  intros Ha Hb Hn Fa Fb. destruct (Nat.ltb_spec 1 (length (filter f (seq 0 n)))) as [|H]; [reflexivity|]. contradiction Hn.
  apply (le1_unique f (seq 0 n)); auto; apply in_seq; lia.
Qed.
Lemma onehot_bin (f : nat -> bool) n k : k < n -> (forall j, j < n -> f j = true <-> j = k) -> onehot_to_bin (map f (seq 0 n)) = Some k.
Proof.
  intros Hk Hf. rewrite onehot_to_bin_eq by (destruct n; [lia|discriminate]). f_equal. apply first_set_spec.
  - rewrite nth_error_map_seq by exact Hk. f_equal. apply Hf; auto.
  - intros j Hj. rewrite nth_error_map_seq by lia. f_equal. destruct (f j) eqn:E; [|reflexivity]. apply Hf in E; lia.
Qed.
Lemma find_seq_some (f : nat -> bool) n k : find f (seq 0 n) = Some k -> k < n /\ f k = true.
Proof. intros H. apply find_some in H. destruct H as [H1 H2]. apply in_seq in H1. split; [lia|exact H2]. Qed.
Lemma find_seq_uniq (f : nat -> bool) n k : k < n -> f k = true -> (forall j, j < n -> f j = true -> j = k) -> find f (seq 0 n) = Some k.
Proof.
  intros Hk Fk Hu. destruct (find f (seq 0 n)) as [j|] eqn:E.
  - apply find_seq_some in E. f_equal. apply Hu; tauto.
  - pose proof (find_none f _ E k ltac:(apply in_seq; lia)). congruence.
Qed.
Lemma fm_none {T} (p : T -> bool) (g : nat -> list T) l : (forall j, In j l -> filter p (g j) = []) -> filter p (flat_map g l) = [].
Proof. induction l as [|x l IH]; intros H; [reflexivity|]. cbn [flat_map]. rewrite filter_app, H, IH; [reflexivity| |left; reflexivity]. intros j Hj. apply H. right. exact Hj. Qed.
Lemma fm_one {T} (p : T -> bool) (g : nat -> list T) k : forall n b, b <= k < b + n -> (forall j, j < b + n -> j <> k -> filter p (g j) = []) -> filter p (flat_map g (seq b n)) = filter p (g k).
Proof.
  induction n as [|n IH]; intros b Hb Hj; [lia|]. cbn [seq flat_map]. rewrite filter_app. destruct (Nat.eq_dec b k) as [->|Hn].
  - rewrite fm_none; [apply app_nil_r|]. intros j Hin. apply in_seq in Hin. apply Hj; lia.
  - rewrite Hj by lia. cbn [app]. apply IH; [lia|]. intros j H1 H2. apply Hj; lia.
Qed.

Section Xb.
  Variables (NM NS AW DEPTH : nat) (conn : nat -> nat -> bool) (region : nat -> nat * nat).
  Hypothesis Hreg : regions_ok AW NS region.
  Hypothesis Hsh : shared NM NS conn.
  Hypothesis HNM : 0 < NM.
  Hypothesis HD : 2 <= DEPTH.
  Notation multi_s := (multi_s NS conn).
  Notation multi_m := (multi_m NM conn).
  Notation cfg := (dec_cfg AW).

  Lemma one_s m s s' : multi_s m = false -> s < NS -> s' < NS -> conn m s = true -> conn m s' = true -> s = s'.
  Proof. clear. unfold XbarModel.multi_s, ss. intros H. apply Nat.ltb_ge in H. intros H1 H2. apply le1_unique with (l := seq 0 NS); [exact H|apply in_seq; lia|apply in_seq; lia]. Qed.
  Lemma one_m s m m' : multi_m s = false -> m < NM -> m' < NM -> conn m s = true -> conn m' s = true -> m = m'.
  Proof. clear. unfold XbarModel.multi_m, ms. intros H. apply Nat.ltb_ge in H. intros H1 H2. apply (le1_unique (fun m => conn m s)) with (l := seq 0 NM); [exact H|apply in_seq; lia|apply in_seq; lia]. Qed.
  Lemma shared_multi m s : m < NM -> s < NS -> conn m s = true -> multi_s m = true \/ multi_m s = true.
  Proof.
    intros Hm Hs Hc. destruct (Hsh m s Hm Hs Hc) as [(s' & H1 & H2 & H3)|(m' & H1 & H2 & H3)]; [left|right].
    - apply two_gt1 with (a := s) (b := s'); auto.
    - apply (two_gt1 (fun m => conn m s)) with (a := m) (b := m'); auto.
  Qed.

  Lemma al8 k b : b mod 2 ^ k = 0 -> ar_aligned cfg (b, 2 ^ k) = true.
  Proof.
    clear. intros H. unfold ar_aligned, e_dw, is_pow2. cbn [e_step e_wu dec_cfg fst snd]. change (1 * 8) with 8. pose proof (pow2_pos k). rewrite Nat.mul_mod_distr_r by lia. rewrite H. cbn [Nat.mul Nat.eqb].
    change 8 with (2 ^ 3) at 1. rewrite <- Nat.pow_add_r, Nat.log2_pow2 by lia. cbn [andb]. apply Nat.eqb_eq. rewrite Nat.pow_add_r. reflexivity.
  Qed.
  Lemma hit_iff s a : s < NS -> a < 2 ^ AW -> (ar_hit cfg (region s) a = true <-> owns (region s) a).
  Proof.
    intros Hs Ha. destruct (proj1 Hreg s Hs) as ((k & Ek) & Hb & Hr). destruct (region s) as [b n]. cbn [fst snd] in *. subst n. unfold ar_hit, owns. cbn [fst snd]. rewrite (al8 k b Hb), bl_pow.
    change (ep_align cfg) with 0. rewrite Nat.add_0_r. cbn [e_aw dec_cfg]. pose proof (pow2_pos k) as Hp. apply Nat.div_exact in Hb; [|lia].
    pose proof (Nat.div_mod a (2 ^ k) ltac:(lia)) as Ea. pose proof (Nat.mod_upper_bound a (2 ^ k) ltac:(lia)).
    destruct (Nat.eqb_spec (AW - k) 0) as [E0|E0].
    - assert (2 ^ AW <= 2 ^ k) by (apply Nat.pow_le_mono_r; lia). split; [intros _; lia|reflexivity].
    - rewrite Nat.eqb_eq. split; [intros E; rewrite E in Ea; lia|]. intros H1. nia.
  Qed.
  Lemma idx_is s a : s < NS -> owns (region s) a -> ar_idx cfg (region s) a = a - fst (region s).
  Proof.
    intros Hs Ha. destruct (proj1 Hreg s Hs) as ((k & Ek) & Hb & Hr). destruct (region s) as [b n]. unfold owns in Ha. cbn [fst snd] in *. subst n. unfold ar_idx. cbn [fst snd]. rewrite (al8 k b Hb), bl_pow.
    change (ep_align cfg) with 0. cbn [Nat.pow]. rewrite Nat.div_1_r. apply Nat.div_exact in Hb; [|pose proof (pow2_pos k); lia]. destruct (Nat.eqb_spec k 0) as [->|E].
    - cbn in *. lia.
    - replace a with (a - b + (b / 2 ^ k) * 2 ^ k) at 1 by lia. rewrite Nat.mod_add by (pose proof (pow2_pos k); lia). apply Nat.mod_small. lia.
  Qed.

  Section Addr.
    Context {A B : Type}.
    Variables (prio : nat -> list bool) (p : nat) (av : nat -> bool) (ad : nat -> nat * B) (srdy osr omr : nat -> bool).
    Hypothesis Hp : p < NM.
    Hypothesis Hprio : forall s, prio s = onehot NM p.
    Hypothesis Ha : forall m, m < NM -> av m = true -> fst (ad m) < 2 ^ AW.
    Notation arb := (x_arb NM NS AW conn region prio av ad osr).
    Notation vld := (x_vld NS AW conn region av ad osr).
    Notation svalid := (x_svalid NM NS AW conn region prio av ad osr omr).
    Notation mrd0 := (x_mrd0 NM NS AW conn region prio av ad srdy osr omr).
    Notation mrd := (x_mrd NM NS AW conn region prio av ad srdy osr omr).
    Notation en := (x_en AW conn region ad).
    Notation tx := (tx A B).

    Lemma arb_wins s m : m < NM -> (arb s m = true <-> wins p (map (fun m => vld m s) (ms NM)) m).
    Proof.
      intros Hm. unfold x_arb. rewrite (Hprio s). unfold ms. rewrite (sel_map NM p) by (rewrite ?map_length, ?seq_length; auto).
      rewrite nth_map_seq by exact Hm. rewrite <- (wins_iff NM p) by (rewrite ?map_length, ?seq_length; auto). rewrite nth_map_seq by exact Hm. reflexivity.
    Qed.
    Lemma arb_fun_m s m m' : m < NM -> m' < NM -> arb s m = true -> arb s m' = true -> m = m'.
    Proof. intros H1 H2. rewrite !arb_wins by assumption. apply wins_unique. Qed.
    Lemma arb_facts s m : m < NM -> s < NS -> arb s m = true -> av m = true /\ conn m s = true /\ owns (region s) (fst (ad m)) /\ (multi_s m = true -> osr m = true).
    Proof.
      intros Hm Hs H. unfold x_arb, x_vld, x_en in H. rewrite !andb_true_iff, if_iff in H. destruct H as (_ & (H1 & H2 & H3) & H4). repeat split; auto; apply (hit_iff s _ Hs) in H3; auto; apply H3.
    Qed.
    Lemma arb_fun_s s s' m : m < NM -> s < NS -> s' < NS -> arb s m = true -> arb s' m = true -> s = s'.
    Proof. intros Hm H1 H2 A1 A2. apply arb_facts in A1, A2; auto. apply (proj2 Hreg s s' (fst (ad m))); tauto. Qed.
    Lemma arb_some s m : m < NM -> vld m s = true -> any (map (arb s) (ms NM)) = true.
    Proof.
      intros Hm H. assert (any (map (fun m => vld m s) (ms NM)) = true) as Ha' by (apply any_seq; eauto). destruct (wins_exists p _ Ha') as [k Hk]. pose proof (wins_lt _ _ _ Hk) as Hl. unfold ms in Hl. rewrite map_length, seq_length in Hl.
      apply any_seq. exists k. split; [exact Hl|]. apply arb_wins; assumption.
    Qed.

    Definition gr (s : nat) : list tx := if svalid s && srdy s then match find (arb s) (ms NM) with Some m => [mk_tx m s (ad m) []] | None => [] end else [].
    Definition grants : list tx := flat_map gr (ss NS).
    Lemma gr_cases s : s < NS ->
      (svalid s && srdy s = false /\ gr s = []) \/
      (exists m, m < NM /\ arb s m = true /\ svalid s && srdy s = true /\ gr s = [mk_tx m s (ad m) []] /\ srdy s = true /\ (multi_m s = true -> omr s = true)).
    Proof.
      intros Hs. unfold gr. destruct (svalid s && srdy s) eqn:E; [right|left; auto]. unfold x_svalid in E. rewrite !andb_true_iff, if_iff in E. destruct E as ((E1 & E2) & E3). apply any_seq in E1. destruct E1 as (m & Hm & Em).
      exists m. repeat split; auto. unfold ms. rewrite (find_seq_uniq (arb s) NM m Hm Em); [reflexivity|]. intros j Hj Ej. apply (arb_fun_m s); auto.
    Qed.
    Lemma grants_s s : s < NS -> of_s s grants = gr s.
    Proof.
      intros Hs. unfold of_s, grants, ss. rewrite (fm_one _ gr s NS 0).
      - destruct (gr_cases s Hs) as [[_ ->]|(m & _ & _ & _ & -> & _)]; [reflexivity|]. cbn. rewrite Nat.eqb_refl. reflexivity.
      - lia.
      - intros j _ Hj. unfold gr. destruct (svalid j && srdy j); [|reflexivity]. destruct (find (arb j) (ms NM)); [|reflexivity]. cbn. apply Nat.eqb_neq in Hj. rewrite Hj. reflexivity.
    Qed.
    Lemma mrd0_iff m : m < NM -> (mrd0 m = true <-> exists s, s < NS /\ arb s m = true /\ srdy s = true /\ (multi_m s = true -> omr s = true)).
    Proof.
      intros Hm. unfold x_mrd0, ss. rewrite any_seq. split; intros (s & Hs & H); exists s; (split; [exact Hs|]).
      - rewrite !andb_true_iff, if_iff in H. tauto.
      - rewrite !andb_true_iff, if_iff. pose proof (arb_facts s m Hm Hs). tauto.
    Qed.
    Lemma mrd_eq m : m < NM -> mrd m && av m = mrd0 m.
    Proof.
      intros Hm. unfold x_mrd. destruct (mrd0 m) eqn:E; [|reflexivity]. apply (mrd0_iff m Hm) in E. destruct E as (s & Hs & Ea & _). apply arb_facts in Ea; auto.
      destruct Ea as (-> & _ & _ & H). destruct (multi_s m); [rewrite H by reflexivity|]; reflexivity.
    Qed.
    Lemma mrd_eq' m : m < NM -> mrd m = mrd0 m.
    Proof.
      intros Hm. unfold x_mrd. destruct (mrd0 m) eqn:E; [|reflexivity]. apply (mrd0_iff m Hm) in E. destruct E as (s & Hs & Ea & _). apply arb_facts in Ea; auto.
      destruct Ea as (_ & _ & _ & H). destruct (multi_s m); [rewrite H by reflexivity|]; reflexivity.
    Qed.
    Lemma grants_m m : m < NM ->
      (mrd m = false /\ of_m m grants = []) \/
      (exists s, s < NS /\ arb s m = true /\ mrd m = true /\ av m = true /\ of_m m grants = [mk_tx m s (ad m) []] /\ x_osd NS AW conn region ad m = Some s).
    Proof.
      intros Hm. rewrite (mrd_eq' m Hm). destruct (mrd0 m) eqn:E.
      - right. apply (mrd0_iff m Hm) in E. destruct E as (s & Hs & Ea & Er & Eo). pose proof (arb_facts s m Hm Hs Ea) as (F1 & F2 & F3 & F4). exists s. repeat split; auto.
        + unfold of_m, grants, ss. rewrite (fm_one _ gr s NS 0); [|lia|].
          * destruct (gr_cases s Hs) as [[E0 _]|(m' & Hm' & Ea' & _ & Eg & _)].
            { exfalso. apply not_true_iff_false in E0. apply E0. unfold x_svalid. rewrite !andb_true_iff, if_iff. repeat split; auto. apply any_seq. eauto. }
            rewrite Eg. rewrite (arb_fun_m s m' m Hm' Hm Ea' Ea). cbn. rewrite Nat.eqb_refl. reflexivity.
          * intros j Hl Hj. unfold gr. destruct (svalid j && srdy j); [|reflexivity]. destruct (find (arb j) (ms NM)) as [m'|] eqn:Ef; [|reflexivity]. apply find_seq_some in Ef. cbn. destruct (Nat.eqb_spec m' m) as [->|]; [|reflexivity].
            contradiction Hj; apply (arb_fun_s j s m); tauto.
        + apply onehot_bin; [exact Hs|]. intros j Hj. unfold x_en. rewrite andb_true_iff, (hit_iff j) by auto. split; [intros [_ H]; apply (proj2 Hreg j s (fst (ad m))); auto|intros ->; auto].
      - left. split; [reflexivity|]. apply fm_none. intros j Hj. apply in_seq in Hj. destruct (gr_cases j ltac:(lia)) as [[_ ->]|(m' & Hm' & Ea & _ & -> & H1 & H2)]; [reflexivity|]. cbn. destruct (Nat.eqb_spec m' m) as [->|]; [|reflexivity].
        apply not_true_iff_false in E. contradiction E. apply (mrd0_iff m Hm). exists j. repeat split; auto; lia.
    Qed.
    Lemma omd_is s m : m < NM -> arb s m = true -> x_omd NM NS AW conn region prio av ad osr s = Some m.
    Proof. intros Hm H. apply onehot_bin; [exact Hm|]. intros j Hj. split; [intros Ej; apply (arb_fun_m s); auto|intros ->; exact H]. Qed.
    Lemma saddr_is s m : m < NM -> s < NS -> arb s m = true -> srdy s = true -> x_saddr NM NS AW conn region prio av ad srdy osr s = Some (fst (ad m) - fst (region s), snd (ad m)).
    Proof.
      intros Hm Hs Hb Hr. pose proof (arb_facts s m Hm Hs Hb) as (F1 & F2 & F3 & F4). unfold x_saddr.
      assert (forall l, (forall j, In j l -> j < NM) -> In m l -> switch (map (fun m0 => (av m0 && (arb s m0 && srdy s), Some (ar_idx cfg (region s) (fst (ad m0)), snd (ad m0)))) l) None = Some (fst (ad m) - fst (region s), snd (ad m))) as H.
      { induction l as [|j l IH]; intros Hl Hin; [contradiction|]. cbn [map switch]. destruct (av j && (arb s j && srdy s)) eqn:E.
        - rewrite !andb_true_iff in E. assert (j = m) as -> by (apply (arb_fun_m s); [apply Hl; left; reflexivity|exact Hm|tauto|exact Hb]). rewrite (idx_is s) by auto. reflexivity.
        - apply IH; [intros k Hk; apply Hl; right; exact Hk|]. destruct Hin as [->|Hin]; [|exact Hin]. rewrite F1, Hb, Hr in E. discriminate. }
      apply H.
      - intros j Hj. apply filter_In in Hj. destruct Hj as [Hj _]. apply in_seq in Hj. lia.
      - apply filter_In. split; [apply in_seq; lia|exact F2].
    Qed.
    Lemma grants_ok : Forall (fun y : tx => tx_ws y = []) grants /\ sent_right NM NS conn region grants.
    Proof.
      unfold sent_right. rewrite !Forall_forall. split; intros x Hx; apply in_flat_map in Hx; destruct Hx as (s & Hs & Hx); apply in_seq in Hs;
        destruct (gr_cases s ltac:(lia)) as [[_ E]|(m & Hm & Ea & _ & E & _)]; rewrite E in Hx; cbn in Hx; try contradiction; destruct Hx as [<-|[]]; cbn; [reflexivity|].
      pose proof (arb_facts s m Hm ltac:(lia) Ea). repeat split; try tauto; try lia; apply H.
    Qed.
  End Addr.

  (** * one data channel *)
  Section Chan.
    Context {A B : Type}.
    Variable lst : A -> bool.
    Notation tx := (tx A B).
    Notation pend := (@pend A B lst).
    Definition key_s (x : tx) : option nat := Some (tx_s x).
    Definition key_m (x : tx) : option nat := Some (tx_m x).
    Record CI (L : list tx) (fs fm : nat -> hsf_st (option nat)) : Prop := {
      ci_right : sent_right NM NS conn region L;
      ci_m : forall m, m < NM -> in_order lst (of_m m L) /\ (multi_s m = true -> HRep DEPTH (fs m) (map key_s (filter pend (of_m m L))));
      ci_s : forall s, s < NS -> in_order lst (of_s s L) /\ (multi_m s = true -> HRep DEPTH (fm s) (map key_m (filter pend (of_s s L)))) }.
    Variables (L : list tx) (fs fm : nat -> hsf_st (option nat)).
    Hypothesis Hci : CI L fs fm.
    (** the words of a cycle *)
    Variables (mv : nat -> nat -> bool) (wd : nat -> nat -> option A).
    Hypothesis Hmv : forall m s, m < NM -> s < NS -> mv m s = true ->
      conn m s = true /\ (multi_s m = true -> f_out (fs m) = (true, Some s)) /\ (multi_m s = true -> f_out (fm s) = (true, Some m)) /\ exists w, wd m s = Some w.
    Hypothesis Hfs : forall m s s', m < NM -> s < NS -> s' < NS -> mv m s = true -> mv m s' = true -> s = s'.
    Hypothesis Hfm : forall m m' s, m < NM -> m' < NM -> s < NS -> mv m s = true -> mv m' s = true -> m = m'.
    Definition tr (m : nat) : option (nat * A) := match find (mv m) (ss NS) with Some s => match wd m s with Some w => Some (s, w) | None => None end | None => None end.
    Lemma tr_iff m s w : m < NM -> (tr m = Some (s, w) <-> s < NS /\ mv m s = true /\ wd m s = Some w).
    Proof.
      intros Hm. unfold tr, ss. split.
      - destruct (find (mv m) (seq 0 NS)) as [s'|] eqn:E; [|discriminate]. apply find_seq_some in E. destruct (wd m s') as [w'|] eqn:Ew; [|discriminate]. intros H. injection H as -> ->. tauto.
      - intros (Hs & H & Ew). rewrite (find_seq_uniq (mv m) NS s Hs H) by (intros j Hj Ej; apply (Hfs m); auto). rewrite Ew. reflexivity.
    Qed.
    Lemma ofm_all m : Forall (fun x => tx_m x = m) (of_m m L). Proof. apply Forall_forall. intros x Hx. apply filter_In in Hx. apply Nat.eqb_eq, Hx. Qed.
    Lemma ofs_all s : Forall (fun x => tx_s x = s) (of_s s L). Proof. apply Forall_forall. intros x Hx. apply filter_In in Hx. apply Nat.eqb_eq, Hx. Qed.
    Lemma hd_rep (f : hsf_st (option nat)) (key : tx -> option nat) V k : HRep DEPTH f (map key V) -> f_out f = (true, k) -> exists x r, V = x :: r /\ key x = k.
    Proof. intros (qi & _ & E) H. unfold f_out in H. injection H as Hv Hd. rewrite Hv, Hd in E. destruct V as [|x r]; [discriminate|]. injection E as E1 E2. eauto. Qed.
    Lemma front m s : m < NM -> s < NS -> mv m s = true ->
      (exists x r, filter pend (of_m m L) = x :: r /\ tx_m x = m /\ tx_s x = s) /\ (exists x r, filter pend (of_s s L) = x :: r /\ tx_m x = m /\ tx_s x = s).
    Proof.
      intros Hm Hs H. destruct (Hmv m s Hm Hs H) as (Hc & H1 & H2 & _). destruct (ci_m _ _ _ Hci m Hm) as [_ R1]. destruct (ci_s _ _ _ Hci s Hs) as [_ R2].
      pose proof (ofm_all m) as Am. pose proof (ofs_all s) as As. rewrite Forall_forall in Am, As. pose proof (ci_right _ _ _ Hci) as Hr. unfold sent_right in Hr.
      assert (multi_s m = true -> exists x r, filter pend (of_m m L) = x :: r /\ tx_m x = m /\ tx_s x = s) as Q1.
      { intros E. destruct (hd_rep _ key_s _ _ (R1 E) (H1 E)) as (x & r & Ef & Ek). exists x, r. split; [exact Ef|]. injection Ek as Ek. split; [|exact Ek]. apply Am. assert (In x (filter pend (of_m m L))) as Hi by (rewrite Ef; left; reflexivity). apply filter_In in Hi. apply Hi. }
      assert (multi_m s = true -> exists x r, filter pend (of_s s L) = x :: r /\ tx_m x = m /\ tx_s x = s) as Q2.
      { intros E. destruct (hd_rep _ key_m _ _ (R2 E) (H2 E)) as (x & r & Ef & Ek). exists x, r. split; [exact Ef|]. injection Ek as Ek. split; [exact Ek|]. apply As. assert (In x (filter pend (of_s s L))) as Hi by (rewrite Ef; left; reflexivity). apply filter_In in Hi. apply Hi. }
      destruct (multi_s m) eqn:E1, (multi_m s) eqn:E2.
      - split; auto.
      - specialize (Q1 eq_refl). split; [exact Q1|]. destruct Q1 as (x & r & Ef & X1 & X2). destruct (same_front' lst m s L x r Ef X2) as (r' & Ef').
        + rewrite Forall_forall in *. intros y Hy Ey. destruct (Hr y Hy) as (Y1 & Y2 & Y3 & _). rewrite Ey in *. apply (one_m s); auto.
        + eauto.
      - specialize (Q2 eq_refl). split; [|exact Q2]. destruct Q2 as (x & r & Ef & X1 & X2). destruct (same_front lst m s L x r Ef X1) as (r' & Ef').
        + rewrite Forall_forall in *. intros y Hy Ey. destruct (Hr y Hy) as (Y1 & Y2 & Y3 & _). rewrite Ey in *. apply (one_s m); auto.
        + eauto.
      - destruct (shared_multi m s Hm Hs Hc) as [C|C]; congruence.
    Qed.

    Definition L1 : list tx := dall lst tr (ms NM) L.
    Lemma view_m m : m < NM ->
      match tr m with
      | Some (s, w) => exists x r, filter pend (of_m m L) = x :: r /\ tx_s x = s /\ filter pend (of_m m L1) = (if lst w then r else push x w :: r) /\ words (of_m m L1) = words (of_m m L) ++ [w]
      | None => of_m m L1 = of_m m L
      end /\ in_order lst (of_m m L1).
    Proof.
      intros Hm. unfold L1. rewrite (dall_m_in lst tr m (ms NM)) by (try apply seq_NoDup; apply in_seq; lia). destruct (ci_m _ _ _ Hci m Hm) as [Ho _].
      destruct (tr m) as [[s w]|] eqn:E; [|split; [reflexivity|exact Ho]]. apply (tr_iff m s w Hm) in E. destruct E as (Hs & E & _). destruct (front m s Hm Hs E) as [(x & r & Ef & X1 & X2) _].
      destruct (deliver_view lst m s w _ x r Ho Ef X1 X2) as (D1 & D2 & D3). split; [|exact D1]. exists x, r. auto.
    Qed.
    Lemma view_s_in m s w : m < NM -> s < NS -> mv m s = true -> wd m s = Some w ->
      (exists x r, filter pend (of_s s L) = x :: r /\ tx_m x = m /\ filter pend (of_s s L1) = (if lst w then r else push x w :: r)) /\ words (of_s s L1) = words (of_s s L) ++ [w] /\ in_order lst (of_s s L1).
    Proof.
      intros Hm Hs E Ew. unfold L1. destruct (ci_s _ _ _ Hci s Hs) as [Ho _]. assert (tr m = Some (s, w)) as Et by (apply tr_iff; auto).
      rewrite (dall_s_in lst tr m s w (ms NM)); [|apply seq_NoDup|apply in_seq; lia|exact Et|].
      - destruct (front m s Hm Hs E) as [_ (x & r & Ef & X1 & X2)]. destruct (deliver_view lst m s w _ x r Ho Ef X1 X2) as (D1 & D2 & D3). split; [|split; auto]. exists x, r. auto.
      - intros m' w' Hin Et'. apply in_seq in Hin. apply tr_iff in Et'; [|lia]. apply (Hfm m' m s); try tauto; lia.
    Qed.
    Lemma view_s_out s : s < NS -> (forall m, m < NM -> mv m s = false) -> of_s s L1 = of_s s L.
    Proof. intros Hs H. apply dall_s_out. intros m w Hin Et. apply in_seq in Hin. apply tr_iff in Et; [|lia]. rewrite H in Et by lia. destruct Et as (_ & C & _). discriminate. Qed.
    Lemma L1_m {T} (f : tx -> T) (g : nat * nat * (nat * B) -> T) m : (forall x, f x = g (req x)) -> map f (of_m m L1) = map f (of_m m L).
    Proof.
      intros Hf. assert (forall l, map f (of_m m l) = map g (filter (fun k => fst (fst k) =? m) (map req l))) as E. { induction l as [|x l IH]; [reflexivity|]. cbn [of_m filter map req fst]. unfold of_m in *. destruct (tx_m x =? m); cbn [map]; rewrite ?IH, ?Hf; reflexivity. }
      rewrite !E. unfold L1. rewrite dall_req. reflexivity.
    Qed.
    Lemma L1_s {T} (f : tx -> T) (g : nat * nat * (nat * B) -> T) s : (forall x, f x = g (req x)) -> map f (of_s s L1) = map f (of_s s L).
    Proof.
      intros Hf. assert (forall l, map f (of_s s l) = map g (filter (fun k => snd (fst k) =? s) (map req l))) as E. { induction l as [|x l IH]; [reflexivity|]. cbn [of_s filter map req fst snd]. unfold of_s in *. destruct (tx_s x =? s); cbn [map]; rewrite ?IH, ?Hf; reflexivity. }
      rewrite !E. unfold L1. rewrite dall_req. reflexivity.
    Qed.

    Variables (G : list tx) (fs' fm' : nat -> hsf_st (option nat)).
    Hypothesis HG : Forall (fun y : tx => tx_ws y = []) G /\ sent_right NM NS conn region G.
    Hypothesis Hfs' : forall m, m < NM -> multi_s m = true -> exists v d rd, fs' m = f_next DEPTH (fs m) v d rd /\
      (if v && f_rdy (fs m) then [d] else []) = map key_s (of_m m G) /\ (ovld (fs m) && rd = true <-> exists s w, tr m = Some (s, w) /\ lst w = true).
    Hypothesis Hfm' : forall s, s < NS -> multi_m s = true -> exists v d rd, fm' s = f_next DEPTH (fm s) v d rd /\
      (if v && f_rdy (fm s) then [d] else []) = map key_m (of_s s G) /\ (ovld (fm s) && rd = true <-> exists m w, m < NM /\ mv m s = true /\ wd m s = Some w /\ lst w = true).
    Lemma f_next_rep f q v d rd : HRep DEPTH f q -> HRep DEPTH (f_next DEPTH f v d rd) ((if ovld f && rd then tl q else q) ++ (if v && f_rdy f then [d] else [])).
    Proof. intros H. destruct (hrep_step DEPTH HD f q (mk_hin v d rd) H) as (R & _). rewrite step_out in R. exact R. Qed.
    Lemma ofm_G m : Forall (fun y : tx => tx_ws y = []) (of_m m G).
    Proof. apply Forall_forall. intros x Hx. apply filter_In in Hx. destruct HG as [H _]. rewrite Forall_forall in H. apply H, Hx. Qed.
    Lemma ofs_G s : Forall (fun y : tx => tx_ws y = []) (of_s s G).
    Proof. apply Forall_forall. intros x Hx. apply filter_In in Hx. destruct HG as [H _]. rewrite Forall_forall in H. apply H, Hx. Qed.
    Lemma chan_step : CI (L1 ++ G) fs' fm'.
    Proof.
      constructor.
      - apply Forall_app. split; [|exact (proj2 HG)]. pose proof (ci_right _ _ _ Hci) as Hr. unfold sent_right in *.
        assert (forall l : list tx, Forall (fun x => tx_m x < NM /\ tx_s x < NS /\ conn (tx_m x) (tx_s x) = true /\ owns (region (tx_s x)) (fst (tx_a x))) l <-> Forall (fun k => fst (fst k) < NM /\ snd (fst k) < NS /\ conn (fst (fst k)) (snd (fst k)) = true /\ owns (region (snd (fst k))) (fst (snd k))) (map req l)) as E by (intros l; rewrite Forall_map; reflexivity).
        rewrite E in *. unfold L1. rewrite dall_req. exact Hr.
      - intros m Hm. unfold of_m. rewrite filter_app. fold (of_m m L1) (of_m m G). destruct (view_m m Hm) as [V Ho]. split; [apply in_order_app; [exact Ho|apply ofm_G]|].
        intros E. destruct (Hfs' m Hm E) as (v & d & rd & -> & Hpush & Hpop). destruct (ci_m _ _ _ Hci m Hm) as [_ R]. pose proof (f_next_rep _ _ v d rd (R E)) as R'. rewrite filter_app, map_app, (pend_empty lst _ (ofm_G m)), <- Hpush.
        replace (map key_s (filter pend (of_m m L1))) with (if ovld (fs m) && rd then tl (map key_s (filter pend (of_m m L))) else map key_s (filter pend (of_m m L))); [exact R'|].
        destruct (tr m) as [[s w]|].
        + destruct V as (x & r & Ef & Ex & Ef' & _). rewrite Ef, Ef'. destruct (lst w) eqn:El.
          * rewrite (proj2 Hpop) by eauto. reflexivity.
          * destruct (ovld (fs m) && rd); [|reflexivity]. destruct (proj1 Hpop eq_refl) as (s1 & w1 & E1 & E2). injection E1 as _ <-. congruence.
        + rewrite V. destruct (ovld (fs m) && rd); [|reflexivity]. destruct (proj1 Hpop eq_refl) as (s1 & w1 & E1 & E2). discriminate.
      - intros s Hs. unfold of_s. rewrite filter_app. fold (of_s s L1) (of_s s G). destruct (ci_s _ _ _ Hci s Hs) as [Ho R].
        destruct (find (fun m => mv m s) (ms NM)) as [m|] eqn:Ef.
        + apply find_seq_some in Ef. destruct Ef as [Hm Em]. destruct (Hmv m s Hm Hs Em) as (_ & _ & _ & w & Ew). destruct (view_s_in m s w Hm Hs Em Ew) as ((x & r & Ex & X1 & X2) & _ & Ho'). split; [apply in_order_app; [exact Ho'|apply ofs_G]|].
          intros E. destruct (Hfm' s Hs E) as (v & d & rd & -> & Hpush & Hpop). pose proof (f_next_rep _ _ v d rd (R E)) as R'. rewrite filter_app, map_app, (pend_empty lst _ (ofs_G s)), <- Hpush.
          replace (map key_m (filter pend (of_s s L1))) with (if ovld (fm s) && rd then tl (map key_m (filter pend (of_s s L))) else map key_m (filter pend (of_s s L))); [exact R'|]. rewrite Ex, X2. destruct (lst w) eqn:El.
          * rewrite (proj2 Hpop) by (exists m, w; auto). reflexivity.
          * destruct (ovld (fm s) && rd); [|reflexivity]. destruct (proj1 Hpop eq_refl) as (m1 & w1 & E1 & E2 & E3 & E4). rewrite (Hfm m1 m s E1 Hm Hs E2 Em) in *. congruence.
        + assert (forall m, m < NM -> mv m s = false) as Hno. { intros m Hm. pose proof (find_none _ _ Ef m). cbn in H. apply H, in_seq. lia. }
          rewrite (view_s_out s Hs Hno). split; [apply in_order_app; [exact Ho|apply ofs_G]|].
          intros E. destruct (Hfm' s Hs E) as (v & d & rd & -> & Hpush & Hpop). pose proof (f_next_rep _ _ v d rd (R E)) as R'. rewrite filter_app, map_app, (pend_empty lst _ (ofs_G s)), <- Hpush.
          destruct (ovld (fm s) && rd); [|exact R']. destruct (proj1 Hpop eq_refl) as (m1 & w1 & E1 & E2 & _). rewrite Hno in E2 by exact E1. discriminate.
    Qed.
  End Chan.
End Xb.
