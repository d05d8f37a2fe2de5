From Verif Require Import Base BaseFacts UlpModel UlpSpec.

Local Arguments Nat.modulo : simpl never.
Local Arguments Nat.div : simpl never.
Local Arguments Nat.eqb : simpl never.
Local Arguments cmd_pid : simpl never.

Lemma pid_div : forall d, cmd_pid d / 64 = 1.
Proof. intros d. unfold cmd_pid. pose proof (Nat.mod_upper_bound d 16 ltac:(lia)). symmetry. apply Nat.div_unique with (r := d mod 16); lia. Qed.
Lemma pid_mod : forall d, cmd_pid d mod 64 = d mod 16.
Proof. intros d. unfold cmd_pid. pose proof (Nat.mod_upper_bound d 16 ltac:(lia)). symmetry. apply Nat.mod_unique with (q := 1); lia. Qed.
Lemma pid_nz : forall d, cmd_pid d <> 0.
Proof. intros d. unfold cmd_pid. lia. Qed.

(** transfers finished when the pending stp is counted *)
Definition eff (s : ulp_st) (p : phy) : list xfer :=
  if stp_q s then match p_st p with PPkt l => p_done p ++ [Pkt l] | PVal c v => p_done p ++ [Wr c v] | _ => p_done p end else p_done p.
Definition wr_st (s : ulp_st) (c : nat) : Prop := (mode_write s = true /\ otg_write s = false /\ c = cmd_fc) \/ (mode_write s = false /\ otg_write s = true /\ c = cmd_otg).
Definition Inv (s : ulp_st) (p : phy) (u : utx) : Prop :=
  dir_q s = p_dir p /\ fst u = packets (eff s p) /\
  match state_q s with
  | LIdle => udata_q s = 0 /\ snd u = None /\ if stp_q s then (exists l, p_st p = PPkt l) \/ (exists c v, p_st p = PVal c v) else p_st p = PIdle
  | LCmd => stp_q s = false /\ p_st p = PIdle /\ snd u = None /\ wr_st s (udata_q s)
  | LReg => stp_q s = false /\ udata_q s = data_q s /\ snd u = None /\ exists c, wr_st s c /\ p_st p = if dir_q s then PIdle else PCmd c
  | LData => stp_q s = false /\ ((exists d, snd u = Some [d mod 16] /\ p_st p = PIdle /\ udata_q s = cmd_pid d) \/
                                 (exists l, snd u = Some (l ++ [udata_q s]) /\ p_st p = PPkt l /\ dir_q s = false))
  end.

Lemma packets_app : forall a b, packets (a ++ b) = packets a ++ packets b.
Proof. intros. apply flat_map_app. Qed.
Lemma writes_app : forall c a b, writes c (a ++ b) = writes c a ++ writes c b.
Proof. intros. apply flat_map_app. Qed.

Ltac crush := cbn in *; repeat match goal with
  | H : _ /\ _ |- _ => destruct H
  | H : exists _, _ |- _ => destruct H
  | H : Some _ = Some _ |- _ => injection H as H
  end; subst; cbn in *.

Lemma inv_init : Inv ulp_init phy0 ([], None).
Proof. repeat split. Qed.

Lemma step_out : forall s i, let o := snd (ulp_step s i) in
  uo_d o = udata_q s /\ uo_t o = accept s i /\ uo_stp o = stp_q s /\ uo_rd o = accept s i.
Proof. intros s i. unfold ulp_step. destruct (fsm s i) as [[[[? ?] ?] ?] ?], (rx_st s i) as [[[? ?] ?] ?]. repeat split. Qed.
Lemma step_st : forall s i, let s' := fst (ulp_step s i) in
  (state_q s', data_q s', udata_q s', mode_write s', otg_write s') = fsm s i /\ stp_q s' = upd_stp s i /\ dir_q s' = dir i /\
  mode_update s' = upd_mu s i /\ fc_q s' = upd_fc s i /\ otg_update s' = upd_ou s i /\ otg_q s' = otg i.
Proof. intros s i. unfold ulp_step. destruct (fsm s i) as [[[[? ?] ?] ?] ?], (rx_st s i) as [[[? ?] ?] ?]. repeat split. Qed.

(** the observers on the fields which they read *)
Definition fin (p : phy) (stp : bool) : pst * list xfer :=
  if stp then match p_st p with PPkt l => (PIdle, p_done p ++ [Pkt l]) | PVal c v => (PIdle, p_done p ++ [Wr c v]) | _ => (PIdle, p_done p) end
  else (p_st p, p_done p).
Lemma phy_step_eq : forall p i o, phy_step p (i, o) =
  mk_phy (dir i) (let st := fst (fin p (uo_stp o)) in
             if owned p i then
               if nxt i then match st with
                             | PIdle => if uo_d o / 64 =? 1 then PPkt [uo_d o mod 64] else PCmd (uo_d o)
                             | PPkt l => PPkt (l ++ [uo_d o])
                             | PCmd c => PVal c (uo_d o)
                             | PVal c v => PVal c v
                             end
               else st
             else match st with PCmd _ => PIdle | _ => st end) (snd (fin p (uo_stp o))).
Proof. intros. unfold phy_step, fin. destruct (uo_stp o); [destruct (p_st p)|]; reflexivity. Qed.
Lemma fin_done : forall s p, snd (fin p (stp_q s)) = eff s p.
Proof. intros. unfold fin, eff. destruct (stp_q s); [destruct (p_st p)|]; reflexivity. Qed.
Lemma fin_idle : forall p, fst (fin p true) = PIdle.
Proof. intros. unfold fin. destruct (p_st p); reflexivity. Qed.

Lemma inv_step : forall s p u i, Inv s p u -> phy_ok p (i, snd (ulp_step s i)) ->
  Inv (fst (ulp_step s i)) (phy_step p (i, snd (ulp_step s i))) (utx_step u (i, snd (ulp_step s i))).
Proof.
  intros s p [un uo] i HI HO. destruct HI as (HD & HP & HS). destruct HO as (HO1 & HO2 & HO3).
  pose proof (step_out s i) as SO. pose proof (step_st s i) as SS. cbv zeta in SO, SS.
  rewrite phy_step_eq. unfold utx_step. remember (snd (ulp_step s i)) as o. remember (fst (ulp_step s i)) as s'.
  destruct SO as (O1 & O2 & O3 & O4), SS as (S1 & S2 & S3 & S4 & S5 & S6 & S7). rewrite O1, O3, O4 in *. cbn in HP.
  rewrite fin_done. unfold Inv. cbn [p_dir p_st p_done fst snd].
  assert (HE : eff s' (mk_phy (dir i) (let st := fst (fin p (stp_q s)) in
             if owned p i then
               if nxt i then match st with
                             | PIdle => if udata_q s / 64 =? 1 then PPkt [udata_q s mod 64] else PCmd (udata_q s)
                             | PPkt l => PPkt (l ++ [udata_q s])
                             | PCmd c => PVal c (udata_q s)
                             | PVal c v => PVal c v
                             end
               else st
             else match st with PCmd _ => PIdle | _ => st end) (eff s p)) = eff s p /\ stp_q s' = false \/ stp_q s' = true) by
    (unfold eff at 1; destruct (stp_q s'); auto).
  split; [exact S3|].
  unfold fsm, upd_stp, accept, turnaround, owned in *. rewrite HD in *.
  destruct (state_q s) eqn:ES; cbn [is_l andb orb negb] in *.
  - (* idle *) destruct HS as (HS1 & HS2 & HS3). rewrite andb_false_r in S2. rewrite S2 in *. destruct HE as [[HE _]|HE]; [|discriminate]. rewrite HE.
    cbn in HS2. subst uo.
    assert (HF : fst (fin p (stp_q s)) = PIdle) by (destruct (stp_q s); [apply fin_idle|exact HS3]). rewrite HF in *.
    rewrite !andb_false_r in S1.
    destruct (p_dir p) eqn:EP, (dir i) eqn:ED; cbn [eqb negb andb orb] in *.
    1, 2, 3: injection S1 as S1a S1b S1c S1d S1e; rewrite S1a; repeat split; assumption || congruence.
    assert (nxt i = false) as HN. { destruct (nxt i); [|reflexivity]. destruct (HO1 eq_refl eq_refl) as [Q1 Q2]. rewrite Q1 in HS3. rewrite HS3, HS1 in Q2. lia. }
    rewrite HN. destruct (mode_update s); cbn [orb negb andb] in *;
      [|destruct (otg_update s); cbn [orb negb andb] in *; [|destruct (txv i)]]; injection S1 as S1a S1b S1c S1d S1e; rewrite S1a; cbn [fst snd]; repeat split; try assumption; try congruence.
    + left. repeat split; congruence.
    + right. repeat split; congruence.
    + left. exists (txd i). repeat split. congruence.
  - (* cmd *) destruct HS as (HS1 & HS2 & HS3 & HS4). rewrite HS1 in *. rewrite andb_false_r in S2. rewrite S2 in *. destruct HE as [[HE _]|HE]; [|discriminate]. rewrite HE.
    cbn in HS3. subst uo. cbn [fin fst]. unfold fin. cbn [fst]. rewrite HS2 in *.
    rewrite !andb_false_r in S1. rewrite !andb_false_r. cbn [fst snd].
    destruct (p_dir p) eqn:EP, (dir i) eqn:ED; cbn [eqb negb andb orb] in *.
    1, 2, 3: injection S1 as S1a S1b S1c S1d S1e; rewrite S1a; repeat split; try assumption; unfold wr_st in *; rewrite S1c, S1d, S1e; assumption.
    destruct (nxt i); injection S1 as S1a S1b S1c S1d S1e; rewrite S1a.
    2: repeat split; try assumption; unfold wr_st in *; rewrite S1c, S1d, S1e; assumption.
    repeat split; try assumption; try congruence. exists (udata_q s). split; [unfold wr_st in *; rewrite S1d, S1e; assumption|].
    rewrite S3. destruct HS4 as [(_ & _ & ->)|(_ & _ & ->)]; reflexivity.
  - (* data *) destruct HS as (HS1 & HS2). rewrite HS1 in *. unfold fin in *. cbn [fst] in *.
    specialize (HO3 eq_refl).
    destruct HS2 as [(d & U & PS & UD)|(l & U & PS & DF)]; cbn in U; subst uo; rewrite PS in *.
    + rewrite UD in *. rewrite pid_div, pid_mod in *. change (1 =? 1) with true in *.
      destruct (p_dir p) eqn:EP, (dir i) eqn:ED; cbn [eqb negb andb orb] in *.
      1, 2, 3: rewrite S2 in *; destruct HE as [[HE _]|HE]; [|discriminate]; rewrite HE; rewrite ?andb_false_r in S1; cbn in S1; injection S1 as S1a S1b S1c S1d S1e; rewrite S1a; repeat split; try assumption; left; exists d; repeat split; congruence.
      destruct (nxt i) eqn:EN; cbn [andb] in *; [destruct (txv i)|]; cbn [negb] in *; injection S1 as S1a S1b S1c S1d S1e; rewrite S1a.
      * rewrite S2 in *; destruct HE as [[HE _]|HE]; [|discriminate]; rewrite HE. cbn [fst snd]. repeat split; try assumption. right. exists [d mod 16]. rewrite S1c. repeat split; congruence.
      * cbn [fst snd]. unfold eff at 1. rewrite S2. cbn [p_st p_done]. rewrite packets_app. repeat split; [f_equal; assumption|congruence|left; eauto].
      * rewrite S2 in *; destruct HE as [[HE _]|HE]; [|discriminate]; rewrite HE. repeat split; try assumption. left. exists d. repeat split; congruence.
    + rewrite DF, HO3 in *. cbn [negb andb] in HO3. apply negb_true_iff in HO3. rewrite HO3 in *. cbn [eqb negb andb orb] in *.
      destruct (nxt i) eqn:EN; cbn [andb] in *; [destruct (txv i)|]; cbn [negb] in *; injection S1 as S1a S1b S1c S1d S1e; rewrite S1a.
      * rewrite S2 in *; destruct HE as [[HE _]|HE]; [|discriminate]; rewrite HE. cbn [fst snd]. repeat split; try assumption. right. exists (l ++ [udata_q s]). rewrite S1c. repeat split; congruence.
      * cbn [fst snd]. unfold eff at 1. rewrite S2. cbn [p_st p_done]. rewrite packets_app. repeat split; [f_equal; assumption|congruence|left; eauto].
      * rewrite S2 in *; destruct HE as [[HE _]|HE]; [|discriminate]; rewrite HE. repeat split; try assumption. right. exists l. repeat split; cbn [snd]; congruence.
  - (* reg *) destruct HS as (HS1 & HS2 & HS3 & c & HW & HS4). rewrite HS1 in *. cbn in HS3. subst uo. unfold fin in *. cbn [fst] in *. rewrite HS4 in *.
    rewrite !andb_false_r. cbn [fst snd].
    destruct (p_dir p) eqn:EP, (dir i) eqn:ED; cbn [eqb negb andb orb] in *.
    + rewrite S2 in *; destruct HE as [[HE _]|HE]; [|discriminate]; rewrite HE. injection S1 as S1a S1b S1c S1d S1e; rewrite S1a.
      repeat split; try assumption; try congruence. exists c. split; [unfold wr_st in *; rewrite S1d, S1e; assumption|]. rewrite S3. reflexivity.
    + rewrite S2 in *; destruct HE as [[HE _]|HE]; [|discriminate]; rewrite HE. injection S1 as S1a S1b S1c S1d S1e; rewrite S1a. repeat split; assumption.
    + rewrite S2 in *; destruct HE as [[HE _]|HE]; [|discriminate]; rewrite HE. destruct (nxt i); cbn in S1; injection S1 as S1a S1b S1c S1d S1e; rewrite S1a.
      * repeat split; assumption.
      * repeat split; try assumption; try congruence. exists c. split; [unfold wr_st in *; rewrite S1d, S1e; assumption|]. rewrite S3. reflexivity.
    + destruct (nxt i) eqn:EN; cbn [andb] in *; injection S1 as S1a S1b S1c S1d S1e; rewrite S1a.
      * unfold eff at 1. rewrite S2. cbn [p_st p_done]. rewrite packets_app. cbn. rewrite app_nil_r. repeat split; [assumption|congruence|right; eauto].
      * rewrite S2 in *; destruct HE as [[HE _]|HE]; [|discriminate]; rewrite HE. repeat split; try assumption; try congruence. exists c. split; [unfold wr_st in *; rewrite S1d, S1e; assumption|]. rewrite S3. reflexivity.
Qed.

Definition trc (is : list ulp_in) := trace ulp_step ulp_init is.
Lemma phys_app : forall t p c, phys_ok p (t ++ [c]) -> phys_ok p t /\ phy_ok (fold_left phy_step t p) c.
Proof. induction t as [|d t IH]; intros p c H; cbn in *; [tauto|]. destruct H as [H1 H2]. apply IH in H2. tauto. Qed.
Lemma inv_run : forall is, phys_ok phy0 (trc is) -> Inv (final ulp_step ulp_init is) (phy_of (trc is)) (utx_of (trc is)).
Proof.
  intros is. induction is as [|i is IH] using rev_ind; intros H; [exact inv_init|].
  unfold trc, phy_of, utx_of in *. rewrite trace_snoc in *. rewrite final_snoc. apply phys_app in H as [H1 H2].
  rewrite !fold_left_app. cbn [fold_left]. apply inv_step; auto.
Qed.

(** * Transmission *)
Lemma ulp_tx : forall is, phys_ok phy0 (trc is) ->
  let p := phy_of (trc is) in let u := utx_of (trc is) in
  (exists x, fst u = packets (p_done p) ++ [open_bytes p] /\ p_st p = PPkt x /\ snd u = None) \/
  (fst u = packets (p_done p) /\ match snd u with None => p_st p <> PPkt (open_bytes p) | Some l => exists b, l = open_bytes p ++ [b] end).
Proof.
  intros is H p u. pose proof (inv_run is H) as (_ & HP & HS). fold p u in HP, HS. unfold eff in HP. unfold open_bytes.
  destruct (state_q _).
  - destruct HS as (_ & HU & HS). destruct (stp_q _).
    + destruct HS as [[l E]|(c & v & E)]; rewrite E in *; rewrite packets_app in HP; cbn in HP.
      * left. exists l. auto.
      * right. rewrite app_nil_r in HP. rewrite HU. split; [exact HP|discriminate].
    + right. rewrite HS, HU. split; [exact HP|discriminate].
  - destruct HS as (HS & E & HU & _). rewrite HS in HP. right. rewrite HU, E. split; [exact HP|discriminate].
  - destruct HS as (HS & E). rewrite HS in HP. right. split; [exact HP|].
    destruct E as [(d & -> & -> & _)|(l & -> & -> & _)]; [exists (d mod 16)|exists (udata_q (final ulp_step ulp_init is))]; reflexivity.
  - destruct HS as (HS & _ & HU & c & _ & E). rewrite HS in HP. right. rewrite HU, E. split; [exact HP|]. destruct (dir_q _); discriminate.
Qed.
(** a byte taken from utmi.tx is on the bus in the next cycle *)
Lemma ulp_next : forall is i j, phys_ok phy0 (trc is) ->
  uo_rd (snd (ulp_step (final ulp_step ulp_init is) i)) = true -> txv i = true ->
  uo_d (snd (ulp_step (final ulp_step ulp_init (is ++ [i])) j)) = match snd (utx_of (trc is)) with None => cmd_pid (txd i) | Some _ => txd i end.
Proof.
  intros is i j H HR HV. pose proof (inv_run is H) as (_ & _ & HS). rewrite final_snoc.
  set (s := final ulp_step ulp_init is) in *. pose proof (step_out s i) as (_ & _ & _ & SO). cbv zeta in SO. rewrite SO in HR.
  pose proof (step_out (fst (ulp_step s i)) j) as (SD & _). cbv zeta in SD. rewrite SD. pose proof (step_st s i) as (S1 & _). cbv zeta in S1.
  unfold accept, fsm in *. rewrite HV in S1.
  destruct (turnaround s i); [discriminate|]. destruct (dir i); [discriminate|]. cbn in HR.
  destruct (state_q s); cbn in HR; try discriminate.
  - destruct (mode_update s), (otg_update s); try discriminate. destruct HS as (_ & -> & _). injection S1. auto.
  - rewrite HR in S1. destruct HS as (_ & [(d & -> & _)|(l & -> & _)]); injection S1; auto.
Qed.
(** a byte on the bus stays until nxt, also over cycles in which the PHY takes the bus *)
Lemma ulp_hold : forall is i j, phys_ok phy0 (trc is ++ [(i, snd (ulp_step (final ulp_step ulp_init is) i))]) -> snd (utx_of (trc is)) <> None ->
  (owned (phy_of (trc is)) i && nxt i = false) ->
  uo_d (snd (ulp_step (final ulp_step ulp_init (is ++ [i])) j)) = uo_d (snd (ulp_step (final ulp_step ulp_init is) i)).
Proof.
  intros is i j H HU HN. apply phys_app in H as [H _]. pose proof (inv_run is H) as (HD & _ & HS). rewrite final_snoc.
  set (s := final ulp_step ulp_init is) in *. pose proof (step_out s i) as (SO & _). cbv zeta in SO. rewrite SO.
  pose proof (step_out (fst (ulp_step s i)) j) as (SD & _). cbv zeta in SD. rewrite SD. pose proof (step_st s i) as (S1 & _). cbv zeta in S1.
  unfold fsm, turnaround in S1. unfold owned in HN. rewrite <- HD in HN. destruct (state_q s); cbn [is_l andb] in S1.
  - destruct HS as (_ & E & _). contradiction.
  - destruct HS as (_ & _ & E & _). contradiction.
  - rewrite andb_false_r in S1. destruct (dir_q s), (dir i), (nxt i); try discriminate HN; injection S1; auto.
  - destruct HS as (_ & _ & E & _). contradiction.
Qed.

(** * Registers *)
Definition RegInv (s : ulp_st) (p : phy) (f : fctl) (g : nat) : Prop :=
  fst (fc_q s) = fst f /\ otg_q s = g /\
  (mode_update s = false -> no_reset (content 65 (writes cmd_fc (eff s p))) = fst f) /\
  (otg_update s = false -> content 6 (writes cmd_otg (eff s p)) = g) /\
  match state_q s with
  | LCmd | LReg => (mode_write s = true -> mode_update s = true /\ exists b : bool, data_q s = fst f + if b then 32 else 0) /\
                   (otg_write s = true -> otg_update s = true /\ data_q s = g)
  | _ => True
  end.
Lemma fc_no_reset : forall f (b : bool), f < 128 -> (f / 32) mod 2 = 0 -> no_reset (f + if b then 32 else 0) = f.
Proof.
  intros f b H1 H2. unfold no_reset. destruct b.
  - pose proof (Nat.div_add f 1 32 ltac:(lia)) as E. rewrite Nat.mul_1_l in E. rewrite E.
    rewrite Nat.add_mod by lia. rewrite H2. change ((0 + 1 mod 2) mod 2 =? 1) with true. cbv iota. lia.
  - rewrite Nat.add_0_r, H2. change (0 =? 1) with false. cbv iota. lia.
Qed.
Lemma content_snoc : forall x l v, content x (l ++ [v]) = v.
Proof. intros. apply last_last. Qed.
Lemma eff_step : forall s p u i, Inv s p u -> phy_ok p (i, snd (ulp_step s i)) ->
  eff (fst (ulp_step s i)) (phy_step p (i, snd (ulp_step s i))) = eff s p ++
  (if upd_stp s i then match state_q s with LReg => [Wr (if mode_write s then cmd_fc else cmd_otg) (data_q s)] | _ => [Pkt (open_bytes (phy_step p (i, snd (ulp_step s i))))] end else []).
Proof.
  intros s p u i (HD & HP & HS) (HO1 & HO2 & HO3). pose proof (step_out s i) as SO. pose proof (step_st s i) as SS. cbv zeta in SO, SS.
  destruct SO as (O1 & O2 & O3 & O4), SS as (S1 & S2 & S3 & _).
  unfold eff at 1. rewrite S2. rewrite phy_step_eq. cbn [p_done p_st]. rewrite O1, O3 in *. rewrite fin_done. cbv zeta.
  unfold upd_stp, turnaround, owned, open_bytes in *. rewrite HD in *. cbn [p_st].
  destruct (p_dir p), (dir i), (nxt i); cbn [eqb negb andb] in *; rewrite ?app_nil_r; try reflexivity.
  destruct (state_q s); cbn [is_l orb andb] in *; rewrite ?app_nil_r; try reflexivity.
  - destruct (txv i); cbn [negb]; rewrite ?app_nil_r; [reflexivity|]. destruct HS as (HS1 & HS). rewrite HS1. unfold fin; cbn [fst].
    destruct HS as [(d & _ & -> & ->)|(l & _ & -> & _)]; [rewrite pid_div|]; reflexivity.
  - destruct HS as (HS1 & -> & _ & c & HW & HS). rewrite HS1. unfold fin; cbn [fst]. rewrite HS. destruct HW as [(-> & _ & ->)|(-> & _ & ->)]; reflexivity.
Qed.
Lemma writes_other : forall a x l, (match x with Pkt _ => True | Wr c _ => c <> a end) -> writes a (l ++ [x]) = writes a l.
Proof. intros a [q|c v] l H; rewrite writes_app; cbn; [|destruct (Nat.eqb_spec c a); [contradiction|]]; apply app_nil_r. Qed.
Lemma writes_same : forall a v l, writes a (l ++ [Wr a v]) = writes a l ++ [v].
Proof. intros. rewrite writes_app. cbn. rewrite Nat.eqb_refl. reflexivity. Qed.

Ltac ift := match goal with |- (if ?b then true else true) = true => destruct b; reflexivity end.
Lemma reg_step : forall first s p u i f g, Inv s p u -> RegInv s p f g -> fc_wf f -> phy_ok p (i, snd (ulp_step s i)) ->
  (first = true -> s = ulp_init) ->
  (first = true \/ (uo_rd (snd (ulp_step s i)) = true /\ nxt i = false) \/ (fc i = f /\ otg i = g)) ->
  RegInv (fst (ulp_step s i)) (phy_step p (i, snd (ulp_step s i))) (fc i) (otg i).
Proof.
  intros first s p u i f g HI HR HF HO H0 HC. pose proof (eff_step _ _ _ _ HI HO) as HE.
  destruct HI as (HD & _ & HS). destruct HR as (R1 & R2 & R3 & R4 & R5). pose proof (step_st s i) as SS. cbv zeta in SS.
  pose proof (step_out s i) as (_ & _ & _ & SO). cbv zeta in SO. rewrite SO in HC.
  destruct SS as (S1 & S2 & S3 & S4 & S5 & S6 & S7). unfold RegInv. rewrite HE.
  assert (HB : fst (fc_q s) = fst (fc i) \/ (state_q s = LIdle /\ mode_update s = false) \/ mode_update s = true /\ fst (fc_q s) = fst (fc i)).
  { destruct HC as [HC|[[HC HN]|[-> _]]]; [|right; left|left; assumption].
    - rewrite (H0 HC). right. left. split; reflexivity.
    - unfold accept in HC. rewrite HN in HC. destruct (state_q s), (mode_update s); cbn in HC; rewrite ?andb_false_r in HC; try discriminate HC; auto. }
  assert (HG : otg_q s = otg i \/ (state_q s = LIdle /\ otg_update s = false)).
  { destruct HC as [HC|[[HC HN]|[_ ->]]]; [|right|left; assumption].
    - rewrite (H0 HC). right. split; reflexivity.
    - unfold accept in HC. rewrite HN in HC. destruct (state_q s), (mode_update s), (otg_update s); cbn in HC; rewrite ?andb_false_r in HC; try discriminate HC; auto. }
  assert (HT : dir i = false -> dir_q s = true -> nxt i = false) by (destruct HO as (_ & HO2 & _); rewrite HD; exact HO2).
  rewrite S4, S5, S6, S7. split; [reflexivity|]. split; [reflexivity|].
  unfold upd_mu, upd_ou, mode_complete, otg_complete in *.
  (* no completion: nothing is finished or a packet *)
  assert (NC : state_q s <> LReg \/ upd_stp s i = false ->
    writes cmd_fc (eff s p ++ (if upd_stp s i then match state_q s with LReg => [Wr (if mode_write s then cmd_fc else cmd_otg) (data_q s)] | _ => [Pkt (open_bytes (phy_step p (i, snd (ulp_step s i))))] end else [])) = writes cmd_fc (eff s p) /\
    writes cmd_otg (eff s p ++ (if upd_stp s i then match state_q s with LReg => [Wr (if mode_write s then cmd_fc else cmd_otg) (data_q s)] | _ => [Pkt (open_bytes (phy_step p (i, snd (ulp_step s i))))] end else [])) = writes cmd_otg (eff s p)).
  { intros [N|N]; [|rewrite N, app_nil_r; auto]. destruct (upd_stp s i); [|rewrite app_nil_r; auto]. destruct (state_q s); try contradiction; split; apply writes_other; exact I. }
  assert (KF : forall b : bool, (if negb (fc_eqb (fc_q s) (fc i)) || snd (fc i) then true else b) = false -> fst (fc_q s) = fst (fc i) /\ b = false).
  { intros b. unfold fc_eqb. destruct (Nat.eqb_spec (fst (fc_q s)) (fst (fc i))); destruct (eqb (snd (fc_q s)) (snd (fc i))), (snd (fc i)); cbn; intros; try discriminate; auto. }
  assert (KG : forall b : bool, (if negb (otg_q s =? otg i) then true else b) = false -> otg_q s = otg i /\ b = false).
  { intros b. destruct (Nat.eqb_spec (otg_q s) (otg i)); cbn; intros; try discriminate; auto. }
  destruct (state_q s) eqn:ES; cbn [is_l andb] in *; rewrite ?andb_false_r.
  - (* idle *) destruct NC as [-> ->]; [left; discriminate|].
    split; [intros K; apply KF in K as [K1 K2]; rewrite <- K1, R1; auto|].
    split; [intros K; apply KG in K as [K1 K2]; rewrite <- K1, R2; auto|].
    unfold fsm in S1. rewrite ES, !andb_false_r in S1. cbn [andb is_l] in S1.
    destruct (turnaround s i); cbn [andb] in S1; [injection S1 as -> _ _ _ _; exact I|].
    destruct (dir i); [injection S1 as -> _ _ _ _; exact I|].
    destruct (mode_update s) eqn:EM; [injection S1 as -> -> _ -> ->|destruct (otg_update s) eqn:EO; [injection S1 as -> -> _ -> ->|destruct (txv i); injection S1 as -> _ _ _ _; exact I]].
    + split; [|discriminate]. intros _. split; [ift|]. exists (snd (fc_q s)). unfold fc_num. f_equal.
      destruct HB as [HB|[[_ HB]|[_ HB]]]; congruence.
    + split; [discriminate|]. intros _. split; [ift|]. destruct HG as [HG|[_ HG]]; congruence.
  - (* cmd *) destruct NC as [-> ->]; [left; discriminate|].
    assert (fst (fc_q s) = fst (fc i)) as EF by (destruct HB as [HB|[[HB _]|[_ HB]]]; congruence || discriminate).
    assert (otg_q s = otg i) as EG by (destruct HG as [HG|[HG _]]; congruence || discriminate).
    split; [intros K; apply KF in K as [K1 K2]; rewrite <- K1, R1; auto|].
    split; [intros K; apply KG in K as [K1 K2]; rewrite <- K1, R2; auto|].
    destruct R5 as [R5 R6].
    assert (E : (state_q (fst (ulp_step s i)) = LCmd \/ state_q (fst (ulp_step s i)) = LReg) /\ data_q (fst (ulp_step s i)) = data_q s /\ mode_write (fst (ulp_step s i)) = mode_write s /\ otg_write (fst (ulp_step s i)) = otg_write s).
    { unfold fsm in S1. rewrite ES, !andb_false_r in S1. cbn [andb is_l] in S1. destruct (turnaround s i), (dir i), (nxt i); injection S1; auto. }
    destruct E as (E1 & -> & -> & ->).
    assert (G : (mode_write s = true -> (if negb (fc_eqb (fc_q s) (fc i)) || snd (fc i) then true else mode_update s) = true /\ (exists b : bool, data_q s = fst (fc i) + (if b then 32 else 0))) /\
                (otg_write s = true -> (if negb (otg_q s =? otg i) then true else otg_update s) = true /\ data_q s = otg i)).
    { split; intros W; [destruct (R5 W) as (-> & b & ->)|destruct (R6 W) as (-> & ->)]; (split; [ift|]); [exists b|]; congruence. }
    destruct E1 as [-> | ->]; exact G.
  - (* data *) destruct NC as [-> ->]; [left; discriminate|].
    split; [intros K; apply KF in K as [K1 K2]; rewrite <- K1, R1; auto|].
    split; [intros K; apply KG in K as [K1 K2]; rewrite <- K1, R2; auto|].
    unfold fsm in S1. rewrite ES, !andb_false_r in S1. cbn [andb is_l] in S1.
    destruct (turnaround s i), (dir i), (nxt i), (txv i); cbn in S1; injection S1 as -> _ _ _ _; exact I.
  - (* reg *)
    assert (fst (fc_q s) = fst (fc i)) as EF by (destruct HB as [HB|[[HB _]|[_ HB]]]; congruence || discriminate).
    assert (otg_q s = otg i) as EG by (destruct HG as [HG|[HG _]]; congruence || discriminate).
    destruct R5 as [R5 R6]. destruct HS as (_ & _ & _ & c & HW & _).
    destruct (nxt i && negb (dir i)) eqn:EN.
    + (* complete *) apply andb_true_iff in EN as [EN ED]. apply negb_true_iff in ED. clear NC.
      assert (dir_q s = false) as EQ by (destruct (dir_q s); [rewrite HT in EN by auto; discriminate|reflexivity]).
      unfold upd_stp, turnaround in *. rewrite ES, EN, ED, EQ in *. cbn [is_l eqb negb andb orb] in *. rewrite ?andb_true_r.
      unfold fsm, turnaround in S1. rewrite ES, EN, ED, EQ in S1. cbn in S1. injection S1 as -> _ _ _ _.
      destruct HW as [(W1 & W2 & _)|(W1 & W2 & _)]; rewrite W1, W2 in *.
      * destruct (R5 eq_refl) as (-> & b & DQ). cbn [andb]. rewrite writes_same, content_snoc, writes_other by (cbn; discriminate).
        rewrite DQ. split; [intros _; rewrite <- EF, R1; apply fc_no_reset; apply HF|]. split; [|exact I].
        rewrite andb_false_r. intros K; apply KG in K as [K1 K2]. rewrite <- K1, R2. auto.
      * destruct (R6 eq_refl) as (-> & DQ). cbn [andb]. rewrite writes_same, content_snoc, writes_other by (cbn; discriminate).
        rewrite DQ. rewrite andb_false_r. split; [intros K; apply KF in K as [K1 K2]; rewrite <- K1, R1; auto|]. split; [intros; congruence|exact I].
    + assert (EN' : forall x, x && nxt i && negb (dir i) = false) by (intros x; rewrite <- andb_assoc, EN; apply andb_false_r).
      rewrite !EN', !andb_false_r.
      assert (upd_stp s i = false) as US by (unfold upd_stp; destruct (nxt i), (dir i); try discriminate EN; rewrite ?andb_false_r; reflexivity).
      destruct NC as [-> ->]; [right; exact US|].
      split; [intros K; apply KF in K as [K1 K2]; rewrite <- K1, R1; auto|].
      split; [intros K; apply KG in K as [K1 K2]; rewrite <- K1, R2; auto|].
      assert (E : state_q (fst (ulp_step s i)) = LIdle \/ (state_q (fst (ulp_step s i)) = LReg /\ data_q (fst (ulp_step s i)) = data_q s /\ mode_write (fst (ulp_step s i)) = mode_write s /\ otg_write (fst (ulp_step s i)) = otg_write s)).
      { unfold fsm in S1. rewrite ES in S1. destruct (turnaround s i), (dir i), (nxt i); try discriminate EN; cbn in S1; injection S1; auto. }
      destruct E as [-> |(-> & -> & -> & ->)]; [exact I|].
      split; intros W; [destruct (R5 W) as (-> & b & ->)|destruct (R6 W) as (-> & ->)]; (split; [ift|]); [exists b|]; congruence.
Qed.

Lemma reg_init : RegInv ulp_init phy0 fc_default otg_default.
Proof. unfold RegInv. repeat split. Qed.
Fixpoint last_fg (f : fctl) (g : nat) (is : list ulp_in) : fctl * nat := match is with [] => (f, g) | i :: is => last_fg (fc i) (otg i) is end.
Lemma reg_run_gen : forall is first s p u f g, Inv s p u -> RegInv s p f g -> fc_wf f -> Forall (fun i => fc_wf (fc i)) is ->
  (first = true -> s = ulp_init) -> phys_ok p (trace ulp_step s is) -> settled first f g (trace ulp_step s is) ->
  RegInv (final ulp_step s is) (fold_left phy_step (trace ulp_step s is) p) (fst (last_fg f g is)) (snd (last_fg f g is)).
Proof.
  induction is as [|i is IH]; intros first s p u f g HI HR HF HA H0 HP HS; [exact HR|].
  rewrite trace_cons in *. rewrite final_cons. cbn [fold_left last_fg]. destruct HP as [HP1 HP2], HS as [HS1 HS2].
  eapply (IH false); [apply inv_step; eassumption| |exact (Forall_inv HA)|exact (Forall_inv_tail HA)|discriminate|exact HP2|exact HS2].
  eapply reg_step; eassumption.
Qed.
Lemma last_fg_in : forall is f g, last_fg f g is = fold_left (fun _ i => (fc i, otg i)) is (f, g).
Proof. induction is as [|i is IH]; intros; [reflexivity|apply IH]. Qed.
Lemma ulp_regs : forall is i, Forall (fun i => fc_wf (fc i)) is -> phys_ok phy0 (trc (is ++ [i])) -> settled true fc_default otg_default (trc is) ->
  uo_rd (snd (ulp_step (final ulp_step ulp_init is) i)) = true -> nxt i = false ->
  let dn := p_done (phy_of (trc (is ++ [i]))) in
  no_reset (content (fst fc_default) (writes cmd_fc dn)) = fst (fst (last_in is)) /\ content otg_default (writes cmd_otg dn) = snd (last_in is).
Proof.
  intros is i HA HP HS HR HN dn. assert (HT : trc (is ++ [i]) = trc is ++ [(i, snd (ulp_step (final ulp_step ulp_init is) i))]) by apply trace_snoc.
  rewrite HT in HP. apply phys_app in HP as [HP1 HP2].
  pose proof (reg_run_gen is true ulp_init phy0 ([], None) fc_default otg_default inv_init reg_init ltac:(split; [cbn; lia|reflexivity]) HA ltac:(auto) HP1 HS) as R.
  rewrite last_fg_in in R. fold (last_in is) in R. unfold dn, phy_of. rewrite HT, fold_left_app. cbn [fold_left].
  pose proof (step_out (final ulp_step ulp_init is) i) as SO. cbv zeta in SO. destruct SO as (_ & _ & SO & SA).
  rewrite phy_step_eq. cbn [p_done]. rewrite SO, fin_done. rewrite SA in HR. unfold accept in HR. rewrite HN in HR.
  destruct R as (_ & _ & R3 & R4 & _).
  destruct (state_q _), (mode_update _), (otg_update _); cbn in HR; rewrite ?andb_false_r in HR; try discriminate HR.
  split; [apply R3|apply R4]; reflexivity.
Qed.

(** * Reception *)
Lemma rx_fields : forall s i, let s' := fst (ulp_step s i) in let o := snd (ulp_step s i) in
  rxvalid s' = upd_rxv s i /\ rxdata s' = upd_rxd s i /\ dir_q s' = dir i /\ (linestate s', intr_q s', rxactive s', rxerror s') = rx_st s i /\
  uo_rxv o = rxvalid s /\ uo_rxd o = rxdata s /\ uo_rxa o = rxactive s /\ uo_ls o = linestate s /\ uo_rxe o = rxerror s /\ uo_int o = intr_q s.
Proof. intros s i. unfold ulp_step. destruct (fsm s i) as [[[[? ?] ?] ?] ?], (rx_st s i) as [[[? ?] ?] ?]. repeat split. Qed.
Lemma seen_run : forall is s i, seen (trace ulp_step s (is ++ [i])) = (if rxvalid s then [rxdata s] else []) ++ sent (dir_q s) (trace ulp_step s is).
Proof.
  induction is as [|j is IH]; intros s i.
  - cbn [app]. rewrite trace_cons. unfold seen. cbn [flat_map snd]. pose proof (rx_fields s i) as (_ & _ & _ & _ & E1 & E2 & _). cbv zeta in *. rewrite E1, E2. reflexivity.
  - cbn [app]. rewrite !trace_cons. unfold seen in *. cbn [flat_map sent]. rewrite IH.
    pose proof (rx_fields s j) as (E1 & E2 & E3 & _ & E4 & E5 & _). cbv zeta in *. cbn [snd]. rewrite E1, E2, E3, E4, E5. do 2 f_equal.
    unfold upd_rxv, upd_rxd, turnaround. destruct (dir_q s), (dir j), (nxt j); reflexivity.
Qed.
Lemma ulp_seen : forall is i, seen (trc (is ++ [i])) = sent true (trc is).
Proof. intros. unfold trc. rewrite seen_run. reflexivity. Qed.
Lemma ulp_active : forall is i, let o := snd (ulp_step (final ulp_step ulp_init is) i) in uo_rxv o = true -> uo_rxa o = true.
Proof.
  intros is i. cbv zeta. pose proof (rx_fields (final ulp_step ulp_init is) i) as (_ & _ & _ & _ & -> & _ & -> & _).
  revert is. apply (rev_ind (fun is => rxvalid (final ulp_step ulp_init is) = true -> rxactive (final ulp_step ulp_init is) = true)); [discriminate|].
  intros j is IH. rewrite final_snoc. pose proof (rx_fields (final ulp_step ulp_init is) j) as (-> & _ & _ & E & _). cbv zeta in E.
  unfold upd_rxv, rx_st in *. destruct (turnaround _ _); [discriminate|]. destruct (dir j); [|discriminate]. destruct (nxt j); [|discriminate].
  injection E as _ _ -> _. reflexivity.
Qed.
Lemma dir_run : forall is, dir_q (final ulp_step ulp_init is) = p_dir (phy_of (trc is)).
Proof.
  intros is. induction is as [|i is IH] using rev_ind; [reflexivity|]. unfold phy_of, trc in *. rewrite final_snoc, trace_snoc, fold_left_app. cbn [fold_left].
  rewrite phy_step_eq. cbn [p_dir]. apply rx_fields.
Qed.
Lemma ulp_idle_rx : forall is i j, p_dir (phy_of (trc is)) = true -> dir i = false -> uo_rxa (snd (ulp_step (final ulp_step ulp_init (is ++ [i])) j)) = false.
Proof.
  intros is i j H1 H2. rewrite <- dir_run in H1. rewrite final_snoc. pose proof (rx_fields (fst (ulp_step (final ulp_step ulp_init is) i)) j) as (_ & _ & _ & _ & _ & _ & -> & _).
  pose proof (rx_fields (final ulp_step ulp_init is) i) as (_ & _ & _ & E & _). cbv zeta in E. unfold rx_st, turnaround in E. rewrite H1, H2 in E. injection E; auto.
Qed.
Lemma line_run : forall is s, linestate (final ulp_step s is) = last_line (dir_q s) (linestate s) (trace ulp_step s is).
Proof.
  induction is as [|i is IH]; intros s; [reflexivity|]. rewrite final_cons, trace_cons. cbn [last_line]. rewrite IH.
  pose proof (rx_fields s i) as (_ & _ & -> & E & _). cbv zeta in E. f_equal. unfold rx_st, turnaround in E.
  destruct (dir_q s), (dir i), (nxt i); cbn [eqb negb andb] in *; try (injection E; intros; assumption).
  revert E. unfold rx_cmd, bits. change (2 ^ 0) with 1. rewrite Nat.div_1_r. change (2 ^ 2) with 4.
  destruct ((di i / 2 ^ 4) mod 4) as [|[|[|]]]; intros E; injection E; intros; assumption.
Qed.
Lemma ulp_line : forall is i, uo_ls (snd (ulp_step (final ulp_step ulp_init is) i)) = last_line true 0 (trc is).
Proof. intros. pose proof (rx_fields (final ulp_step ulp_init is) i) as (_ & _ & _ & _ & _ & _ & _ & -> & _). apply line_run. Qed.

(** * Driving of the bus *)
Lemma ulp_drive : forall is i, uo_t (snd (ulp_step (final ulp_step ulp_init is) i)) = true -> owned (phy_of (trc is)) i = true.
Proof.
  intros is i. pose proof (step_out (final ulp_step ulp_init is) i) as (_ & -> & _). unfold accept, turnaround, owned. rewrite <- dir_run.
  destruct (dir_q _), (dir i); cbn; auto.
Qed.

(** * Cases in which the bridge stays *)
Lemma stay_run : forall s p q, fst (ulp_step s q) = s -> phy_step p (q, snd (ulp_step s q)) = p ->
  forall n, final ulp_step s (repeat q n) = s /\ fold_left phy_step (trace ulp_step s (repeat q n)) p = p.
Proof.
  intros s p q H1 H2. induction n as [|n [IH1 IH2]]; [split; reflexivity|].
  cbn [repeat]. rewrite final_cons, trace_cons, H1. cbn [fold_left]. rewrite H2. auto.
Qed.
Lemma last_repeat : forall q n x v, fst (fst x) = v -> fst (fc q) = v -> fst (fst (fold_left (fun _ i => (fc i, otg i)) (repeat q n) x)) = v.
Proof. intros q n. induction n as [|n IH]; intros x v H1 H2; [exact H1|]. cbn [repeat fold_left]. apply IH; exact H2. Qed.
Lemma ulp_stale : forall is q v w, let s := final ulp_step ulp_init is in let p := phy_of (trc is) in
  fst (ulp_step s q) = s -> phy_step p (q, snd (ulp_step s q)) = p -> uo_rd (snd (ulp_step s q)) = true ->
  fst (fst (last_in is)) = v /\ fst (fc q) = v -> content (fst fc_default) (writes cmd_fc (p_done p)) = w ->
  forall n, let js := is ++ repeat q n in
  uo_rd (snd (ulp_step (final ulp_step ulp_init js) q)) = true /\ fst (fst (last_in js)) = v /\ content (fst fc_default) (writes cmd_fc (p_done (phy_of (trace ulp_step ulp_init js)))) = w.
Proof.
  intros is q v w s p H1 H2 H3 [H4 H6] H5 n. cbv zeta. rewrite final_app. fold s. destruct (stay_run s p q H1 H2 n) as [-> E].
  split; [exact H3|]. split.
  - unfold last_in in *. rewrite fold_left_app. apply last_repeat; assumption.
  - unfold phy_of. rewrite trace_app, fold_left_app. fold s. fold (trc is). fold (phy_of (trc is)). fold p. rewrite E. exact H5.
Qed.
Lemma hd_step : forall s i, HostDisconnect (intr_q s) = true -> HostDisconnect (intr_q (fst (ulp_step s i))) = true.
Proof.
  intros s i H. pose proof (rx_fields s i) as (_ & _ & _ & E & _). cbv zeta in E. unfold rx_st in E.
  destruct (turnaround s i); [injection E; congruence|]. destruct (dir i), (nxt i); [injection E; congruence| |injection E; congruence|injection E; congruence].
  unfold rx_cmd in E. destruct (bits (di i) 4 2) as [|[|[|]]]; injection E as _ E _ _; rewrite E; auto.
Qed.
Lemma hd_run : forall js s, HostDisconnect (intr_q s) = true -> HostDisconnect (intr_q (final ulp_step s js)) = true.
Proof. induction js as [|j js IH]; intros s H; [exact H|]. rewrite final_cons. apply IH, hd_step, H. Qed.
Lemma ulp_hd : forall is js i, HostDisconnect (intr_q (final ulp_step ulp_init is)) = true ->
  HostDisconnect (uo_int (snd (ulp_step (final ulp_step ulp_init (is ++ js)) i))) = true.
Proof. intros is js i H. rewrite final_app. pose proof (rx_fields (final ulp_step (final ulp_step ulp_init is) js) i) as (_ & _ & _ & _ & _ & _ & _ & _ & _ & ->). apply hd_run, H. Qed.
Lemma ulp_rxcmd : forall is i j, p_dir (phy_of (trc is)) = true -> dir i = true -> nxt i = false ->
  let o := snd (ulp_step (final ulp_step ulp_init (is ++ [i])) j) in
  VbusValid (uo_int o) = ((di i / 4) mod 4 =? 3) /\ IdGnd (uo_int o) = ((di i / 64) mod 2 =? 1) /\ uo_ls o = di i mod 4 /\
  ((di i / 16) mod 4 <> 2 -> uo_rxa o = negb ((di i / 16) mod 4 =? 0) /\ uo_rxe o = ((di i / 16) mod 4 =? 3)).
Proof.
  intros is i j H1 H2 H3. cbv zeta. rewrite <- dir_run in H1. rewrite final_snoc.
  pose proof (rx_fields (fst (ulp_step (final ulp_step ulp_init is) i)) j) as (_ & _ & _ & _ & _ & _ & -> & -> & -> & ->).
  set (s := final ulp_step ulp_init is) in *. pose proof (rx_fields s i) as (_ & _ & _ & E & _). cbv zeta in E.
  unfold rx_st, turnaround in E. rewrite H1, H2, H3 in E. cbn [eqb negb] in E. unfold rx_cmd, bits in E.
  change (2 ^ 0) with 1 in E. change (2 ^ 1) with 2 in E. change (2 ^ 2) with 4 in E. change (2 ^ 4) with 16 in E. change (2 ^ 6) with 64 in E. rewrite Nat.div_1_r in E.
  pose proof (Nat.mod_upper_bound (di i / 4) 4 ltac:(lia)) as B1. pose proof (Nat.mod_upper_bound (di i / 16) 4 ltac:(lia)) as B2.
  destruct ((di i / 4) mod 4) as [|[|[|[|k]]]]; [| | | |lia]; (destruct ((di i / 16) mod 4) as [|[|[|[|m]]]]; [| | | |lia]);
    injection E as -> -> -> ->; cbn; repeat split; congruence || reflexivity.
Qed.

(** checks of the rules of the PHY on a run *)
Definition phy_okb (p : phy) (c : ulp_in * ulp_out) : bool :=
  let '(i, o) := c in
  (negb (owned p i && nxt i) || (negb (uo_stp o) && match p_st p with PIdle => negb (uo_d o =? 0) | PPkt _ | PCmd _ => true | PVal _ _ => false end)) &&
  (dir i || negb (p_dir p) || negb (nxt i)) && (uo_stp o || match p_st p with PPkt _ => owned p i | _ => true end).
Fixpoint phys_okb (p : phy) (t : list (ulp_in * ulp_out)) : bool := match t with [] => true | c :: t => phy_okb p c && phys_okb (phy_step p c) t end.
Lemma phy_okb_ok : forall p c, phy_okb p c = true -> phy_ok p c.
Proof.
  intros p [i o] H. unfold phy_okb, phy_ok in *. apply andb_true_iff in H as [H H3]. apply andb_true_iff in H as [H1 H2].
  split; [intros A B; rewrite A, B in H1; cbn [negb andb orb] in H1; apply andb_true_iff in H1 as [H1 H4]; split; [destruct (uo_stp o); [discriminate|reflexivity]|]|split].
  - destruct (p_st p); try exact I; [|discriminate]. destruct (Nat.eqb_spec (uo_d o) 0); [discriminate|assumption].
  - intros A B. rewrite A, B in H2. destruct (nxt i); [discriminate|reflexivity].
  - intros A. rewrite A in H3. destruct (p_st p); auto.
Qed.
Lemma phys_okb_ok : forall t p, phys_okb p t = true -> phys_ok p t.
Proof. induction t as [|c t IH]; intros p H; [exact I|]. apply andb_true_iff in H as [H1 H2]. split; [apply phy_okb_ok, H1|apply IH, H2]. Qed.
