From Verif Require Import Base BaseFacts StreamSpec StreamFacts HsRegModel HsRegSpec HsRegProofs HsRegPropsAux FifoModel FifoProofs HsFifoProofs AmbSpec BufModel BufSpec.

Section Buff.
  Context {A : Type}.
  Variable u : A.
  Notation step := (hb_step u).
  Definition HB (b : hbuf A) (cap : nat) (q : list A) : Prop :=
    match b with
    | HWire => q = [] /\ cap = 0
    | HReg r => rok r /\ q = rcontents r /\ cap = rcap r
    | HFifo d s => 2 <= d /\ HRep d s q /\ cap = d
    end.
  Lemma hb_len b cap q : HB b cap q -> length q <= cap.
  Proof.
    destruct b as [|r|d s]; cbn [HB].
    - intros [-> ->]. cbn. lia.
    - intros (_ & -> & ->). apply rcontents_len.
    - intros (H & R & ->). apply (hrep_len d H s q R).
  Qed.
  Lemma hb_law b cap q (i : hsr_in A) : HB b cap q -> exists q', HB (fst (step b i)) cap q' /\ q ++ acc1 (hsr_obs (i, snd (step b i))) = del1 (hsr_obs (i, snd (step b i))) ++ q'.
  Proof.
    unfold acc1, del1. destruct b as [|r|d s]; cbn [HB hb_step].
    - intros [-> ->]. exists []. cbn. split; [auto|]. destruct (ri_vld i && ri_rd i); reflexivity.
    - intros (K & -> & ->). destruct (hsreg_law u r i) as (L & C & O). destruct (hsreg_step u r i) as [r' o]. cbn [fst snd] in *.
      exists (rcontents r'). split; [cbn; auto|exact L].
    - intros (H & R & ->). pose proof (hrep_step d H s q (mk_hin (ri_vld i) (ri_data i) (ri_rd i)) R) as S. cbv zeta in S. destruct S as (S1 & S2 & _).
      destruct (hsf_step d s _) as [s' o]. cbn [fst snd i_vld i_data i_rd] in *.
      eexists. split; [cbn; split; [exact H|]; split; [exact S1|reflexivity]|]. cbn. destruct (h_vld o) eqn:V; cbn [andb].
      + destruct (S2 eq_refl) as [q' ->]. destruct (ri_rd i); reflexivity.
      + reflexivity.
  Qed.
  Lemma hb_stable b cap q (i j : hsr_in A) : 0 < cap -> HB b cap q -> ri_rd i = false -> ro_vld (snd (step b i)) = true ->
    ro_vld (snd (step (fst (step b i)) j)) = true /\ ro_data (snd (step (fst (step b i)) j)) = ro_data (snd (step b i)).
  Proof.
    intros Hc. destruct b as [|r|d s]; cbn [HB hb_step].
    - intros [_ ->]. lia.
    - intros (K & -> & ->) Hr Hv. pose proof (hsreg_stable1 u r i K Hr) as S. destruct (hsreg_step u r i) as [r' o]. cbn [fst snd] in *. specialize (S Hv j). cbn [hb_step].
      destruct (hsreg_step u r' j) as [r2 o2]. exact S.
    - intros (H & R & ->) Hr. pose proof (hrep_step d H s q (mk_hin (ri_vld i) (ri_data i) (ri_rd i)) R) as S. cbv zeta in S. destruct S as (S1 & _ & S3 & _).
      destruct (hsf_step d s _) as [s' o]. cbn [fst snd i_vld i_data i_rd ro_vld ro_data] in *. intros Hv. destruct (S3 Hv Hr) as [E1 E2]. cbn [hb_step].
      rewrite <- E2. pose proof (step_out d s' (mk_hin (ri_vld j) (ri_data j) (ri_rd j))) as Eo.
      destruct (hsf_step d s' _) as [s2 o2]. cbn [fst snd ro_vld ro_data] in *. rewrite Eo. cbn. auto.
  Qed.
  Lemma hb_run b cap q is : HB b cap q -> exists q', HB (final step b is) cap q' /\
    q ++ accepted (map hsr_obs (trace step b is)) = delivered (map hsr_obs (trace step b is)) ++ q'.
  Proof.
    revert b q. induction is as [|i is IH]; intros b q H.
    - exists q. split; [exact H|]. cbn. rewrite app_nil_r. reflexivity.
    - destruct (hb_law b cap q i H) as (q1 & H1 & E1). destruct (IH _ _ H1) as (q2 & H2 & E2). exists q2. rewrite final_cons. split; [exact H2|].
      rewrite trace_cons, map_cons, accepted_cons, delivered_cons. fold (acc1 (hsr_obs (i, snd (step b i)))). fold (del1 (hsr_obs (i, snd (step b i)))).
      rewrite app_assoc, E1, <- !app_assoc, E2. reflexivity.
  Qed.
  Lemma hb_out_stable b cap q is : 0 < cap -> HB b cap q -> out_stable (map hsr_obs (trace step b is)).
  Proof.
    intros Hc. revert b q. induction is as [|i is IH]; intros b q H; [exact Logic.I|]. rewrite trace_cons, map_cons.
    destruct (hb_law b cap q i H) as (q1 & H1 & _). pose proof (IH _ _ H1) as T. destruct is as [|j is]; [exact Logic.I|].
    rewrite trace_cons, map_cons in *. split; [|exact T]. cbn [out_vld out_rd out_data hsr_obs fst snd]. intros V R. apply (hb_stable b cap q i j Hc H R V).
  Qed.
  Lemma hsreg_init_ok l dl d0 (r : hsreg A) : hsreg_init l dl [] d0 = Some r -> rok r /\ rcap r = latency_cap l /\ rcontents r = [].
  Proof.
    unfold hsreg_init. intros Hi. destruct l as [n|].
    - destruct (dl =? 0).
      + destruct ((1 <=? n) && _) eqn:E; [|discriminate]. injection Hi as <-. cbn. rewrite map_length, seq_length. apply andb_prop in E. destruct E as [E _]. apply Nat.leb_le in E.
        split; [destruct n; [lia|discriminate]|]. split; [reflexivity|]. clear. generalize 0 as k. induction n as [|n IH]; intros k; [reflexivity|]. cbn. rewrite IH. reflexivity.
      + destruct ((n =? 2) && (dl =? 1)) eqn:E; [|discriminate]. apply andb_prop in E. destruct E as [E _]. apply Nat.eqb_eq in E. subst n. injection Hi as <-. cbn. repeat split; discriminate.
    - destruct (dl =? 0); [|discriminate]. injection Hi as <-. cbn. auto.
  Qed.
  Lemma hb_init_ok items lat delay d0 m x b : hb_init items lat delay d0 m x = Some b -> HB b (holds items lat) [].
  Proof.
    unfold hb_init, holds. destruct (Nat.eqb_spec items 0) as [Z|Z].
    - subst items. destruct lat as [[[|n]|]|], delay as [[|k]|]; intros E; try discriminate E; injection E as <-; cbn; auto.
    - destruct lat as [[n|]|].
      + destruct (Nat.eqb_spec n 0) as [N|N]; [discriminate|]. destruct (Nat.eqb_spec n 1) as [N1|N1]; cbn [orb].
        * subst n. destruct (hsreg_init _ _ [] d0) as [r|] eqn:E; [|discriminate]. intros [= <-]. destruct (hsreg_init_ok _ _ _ _ E) as (K & C & Q). cbn. rewrite Q, C. auto.
        * destruct (Nat.leb_spec items n) as [L|L].
          -- destruct (hsreg_init _ _ [] d0) as [r|] eqn:E; [|discriminate]. intros [= <-]. destruct (hsreg_init_ok _ _ _ _ E) as (K & C & Q). cbn. rewrite Q, C. cbn. split; [exact K|]. split; [reflexivity|]. lia.
          -- destruct ((n =? 2) && _) eqn:E; [|discriminate]. intros [= <-]. apply andb_prop in E. destruct E as [E _]. apply Nat.eqb_eq in E. subst n. cbn [HB].
             split; [lia|]. split; [apply hrep_init; [lia|]; left; cbn; lia|]. lia.
      + destruct (hsreg_init _ _ [] d0) as [r|] eqn:E; [|discriminate]. intros [= <-]. destruct (hsreg_init_ok _ _ _ _ E) as (K & C & Q). cbn. rewrite Q, C. auto.
      + destruct (Nat.eqb_spec items 1) as [N|N].
        * subst items. cbn [orb Nat.eqb]. destruct (hsreg_init _ _ [] d0) as [r|] eqn:E; [|discriminate]. intros [= <-]. destruct (hsreg_init_ok _ _ _ _ E) as (K & C & Q). cbn. rewrite Q, C. auto.
        * cbn [orb Nat.eqb]. destruct (Nat.leb_spec items 2) as [L|L].
          -- destruct (hsreg_init _ _ [] d0) as [r|] eqn:E; [|discriminate]. intros [= <-]. destruct (hsreg_init_ok _ _ _ _ E) as (K & C & Q). cbn. rewrite Q, C. cbn. split; [exact K|]. split; [reflexivity|]. lia.
          -- destruct (_ && _) eqn:E; [|discriminate]. intros [= <-]. cbn [HB]. split; [lia|]. split; [apply hrep_init; [lia|]; left; cbn; lia|reflexivity].
  Qed.
  Lemma hb_queue items lat delay d0 m x b is : hb_init items lat delay d0 m x = Some b -> is_buffer (holds items lat) (map hsr_obs (trace step b is)).
  Proof.
    intros H. apply hb_init_ok in H. split.
    - destruct (hb_run b _ [] is H) as (q & R & E). exists q. split; [exact E|]. apply (hb_len _ _ _ R).
    - intros Hc. exact (hb_out_stable b _ [] is Hc H).
  Qed.

  (** default latency and delay *)
  Definition Short (b : hbuf A) : Prop := match b with HReg (RChain ss) => Forall (fun s => sk s = KLat) ss /\ length ss <= 2 | HReg (RBreak _) => False | _ => True end.
  Lemma chain_klat ss iv (d : A) rd : Forall (fun s => sk s = KLat) ss -> Forall (fun s => sk s = KLat) (fst (chain_step ss iv d rd)).
  Proof.
    intros H. revert iv d. induction H as [|s ss Hs _ IH]; intros iv d; [constructor|]. cbn. specialize (IH (occ s) (sdat s)). destruct (chain_step ss _ _ _) as [ss' [[r v] y]]. cbn in *.
    constructor; [|exact IH]. unfold stage_next. rewrite Hs. reflexivity.
  Qed.
  Lemma short_step b (i : hsr_in A) : Short b -> Short (fst (step b i)).
  Proof.
    destruct b as [|[ss|br]|d s]; cbn [Short hb_step]; [auto| |tauto|].
    - intros [F L]. cbn [hsreg_step]. pose proof (chain_klat ss (ri_vld i) (ri_data i) (ri_rd i) F) as F'. pose proof (chain_len ss (ri_vld i) (ri_data i) (ri_rd i)) as L'.
      destruct (chain_step ss _ _ _) as [ss' [[r v] y]]. cbn in *. split; [exact F'|lia].
    - intros _. destruct (hsf_step d s _). exact Logic.I.
  Qed.
  Lemma short_run b is : Short b -> Short (final step b is).
  Proof. revert b. induction is as [|i is IH]; intros b H; [exact H|]. rewrite final_cons. apply IH, short_step, H. Qed.
  Lemma short_init items d0 m x b : hb_def items d0 m x = Some b -> Short b.
  Proof.
    unfold hb_def, hb_init. destruct (Nat.eqb_spec items 0) as [Z|Z]; [intros [= <-]; exact Logic.I|]. destruct (Nat.eqb_spec items 1) as [N|N].
    - cbn. intros [= <-]. cbn. repeat constructor.
    - cbn [Nat.eqb orb]. destruct (items <=? 2); [cbn; intros [= <-]; cbn; repeat constructor|]. cbn. intros [= <-]. exact Logic.I.
  Qed.
  Lemma hb_room b cap q (i j : hsr_in A) : HB b cap q -> Short b -> length q < cap ->
    ro_rd (snd (step b i)) = true \/ ri_vld i && ro_rd (snd (step b i)) = false /\ ro_rd (snd (step (fst (step b i)) j)) = true.
  Proof.
    destruct b as [|[ss|br]|d s]; cbn [HB Short hb_step]; [intros [-> ->]; cbn; lia| |tauto|].
    - intros (_ & -> & ->) [F _] L. left. cbn [hsreg_step rcontents rcap] in *.
      assert (fst (fst (snd (chain_step ss (ri_vld i) (ri_data i) (ri_rd i)))) = true) as E.
      { revert L. generalize (ri_vld i) as v, (ri_data i) as y. induction F as [|s ss Hs _ IH]; intros v y L; [cbn in L; lia|]. cbn [chain_step]. specialize (IH (occ s) (sdat s)).
        destruct (chain_step ss _ _ _) as [ss' [[r ov] od]]. cbn in *. unfold stage_rd. rewrite Hs. destruct (occ s); [|reflexivity]. apply IH. rewrite app_length in L. cbn in L. lia. }
      destruct (chain_step ss _ _ _) as [ss' [[r ov] od]]. exact E.
    - intros (H & R & ->) _ L. pose proof (hrep_step d H s q (mk_hin (ri_vld i) (ri_data i) (ri_rd i)) R) as S. cbv zeta in S. destruct S as (S1 & S2 & _ & S4 & _ & _ & S7 & _).
      pose proof (step_out d s (mk_hin (ri_vld i) (ri_data i) (ri_rd i))) as Eo.
      destruct (hsf_step d s _) as [s' o]. cbn [fst snd i_vld i_data i_rd ro_rd ro_vld] in *.
      destruct (h_rd o) eqn:Er; [left; reflexivity|right]. rewrite andb_false_r in *. split; [reflexivity|].
      assert (length q = d - 1) as Lq by (destruct (Nat.lt_ge_cases (length q) (d - 1)) as [Q|Q]; [specialize (S4 Q); discriminate|lia]).
      destruct R as (qi & Rq & Eq). pose proof (rep_len _ _ _ Rq) as Lqi.
      assert (h_rd o = negb (length qi =? d - 1)) as Erd by (rewrite Eo; cbn; rewrite (rep_wwait (d - 1) ltac:(lia) _ _ Rq); reflexivity).
      rewrite Er in Erd. symmetry in Erd. apply negb_false_iff, Nat.eqb_eq in Erd.
      assert (ovld s = false) as Ov by (rewrite Eq in Lq; destruct (ovld s); [cbn in Lq; lia|reflexivity]).
      assert (h_vld o = false) as Hv by (rewrite Eo; exact Ov). rewrite Hv in *. cbn [andb] in S1. rewrite app_nil_r in S1.
      assert (q <> []) as Nq by (intros ->; cbn in Lq; lia). specialize (S7 eq_refl Nq).
      pose proof (step_out d s' (mk_hin (ri_vld j) (ri_data j) (ri_rd j))) as Eo2. cbn [hb_step]. destruct (hsf_step d s' _) as [s2 o2]. cbn [fst snd ro_rd] in *. rewrite Eo2. cbn.
      destruct S1 as (qi2 & Rq2 & Eq2). rewrite S7 in Eq2. rewrite (rep_wwait (d - 1) ltac:(lia) _ _ Rq2).
      apply (f_equal (@length A)) in Eq2. cbn in Eq2. destruct (Nat.eqb_spec (length qi2) (d - 1)); [lia|reflexivity].
  Qed.
  Lemma hb_offer b cap q (i j : hsr_in A) : HB b cap q -> Short b -> q <> [] ->
    ro_vld (snd (step b i)) = true \/ ro_vld (snd (step (fst (step b i)) j)) = true.
  Proof.
    destruct b as [|[ss|br]|d s]; cbn [HB Short hb_step]; [intros [-> _]; congruence| |tauto|].
    - intros (_ & -> & _) [F L] N. cbn [rcontents] in N. destruct ss as [|s1 [|s2 [|]]]; [cbn in N; congruence| | |cbn in L; lia].
      + destruct s1 as [k o y]. cbn in N |- *. destruct o; [left; reflexivity|congruence].
      + pose proof (Forall_inv F) as K1. pose proof (Forall_inv (Forall_inv_tail F)) as K2. destruct s1 as [k1 o1 y1], s2 as [k2 o2 y2]. cbn in K1, K2, N. subst. cbn.
        destruct o2; [left; reflexivity|]. destruct o1; [right; reflexivity|cbn in N; congruence].
    - intros (H & R & ->) _ N. pose proof (hrep_step d H s q (mk_hin (ri_vld i) (ri_data i) (ri_rd i)) R) as S. cbv zeta in S. destruct S as (_ & _ & _ & _ & _ & _ & S7 & _).
      destruct (hsf_step d s _) as [s' o]. cbn [fst snd ro_vld] in *. destruct (h_vld o) eqn:V; [left; reflexivity|right]. specialize (S7 eq_refl N).
      cbn [hb_step]. pose proof (step_out d s' (mk_hin (ri_vld j) (ri_data j) (ri_rd j))) as Eo2. destruct (hsf_step d s' _) as [s2 o2]. cbn in *. rewrite Eo2. exact S7.
  Qed.
  Lemma hb_live items d0 m x b is (i j : hsr_in A) : hb_def items d0 m x = Some b ->
    let n := stored [] (map hsr_obs (trace step b is)) in let s := final step b is in let s' := fst (step s i) in
    (n < items -> ro_rd (snd (step s i)) = true \/ ro_rd (snd (step s' j)) = true) /\
    (0 < n -> ro_vld (snd (step s i)) = true \/ ro_vld (snd (step s' j)) = true).
  Proof.
    intros H n s s'. pose proof (short_init _ _ _ _ _ H) as S. apply hb_init_ok in H. destruct (hb_run b _ [] is H) as (q & R & E).
    apply (short_run b is) in S. fold s in S, R.
    assert (n = length q) as -> by (unfold n, stored; cbn [app] in E; rewrite E, app_length; cbn; lia). split.
    - intros L. destruct (hb_room s _ q i j R S L) as [K|[_ K]]; auto.
    - intros L. apply (hb_offer s _ q i j R S). intros ->. cbn in L. lia.
  Qed.
  Lemma hb_builds items d0 m x : exists b : hbuf A, hb_def items d0 m x = Some b.
  Proof.
    unfold hb_def, hb_init. destruct (items =? 0); [eauto|]. destruct (items =? 1); [cbn; eauto|]. cbn [Nat.eqb orb]. destruct (items <=? 2); cbn; eauto.
  Qed.
End Buff.

Section AxiBuff.
  Context {A : Type}.
  Variable u : A.
  Definition pick (c : chan) (s : axb_st A) : hbuf A := match c with CAr => b_ar s | CAw => b_aw s | CW => b_w s | CR => b_r s | CB => b_b s end.
  Lemma axb_pick c s i : pick c (fst (axb_step u s i)) = fst (hb_step u (pick c s) (chan_in c i)) /\ chan_out c (snd (axb_step u s i)) = snd (hb_step u (pick c s) (chan_in c i)).
  Proof.
    unfold axb_step. destruct (hb_step u (b_ar s) _) as [ar oar] eqn:E1. destruct (hb_step u (b_aw s) _) as [aw oaw] eqn:E2. destruct (hb_step u (b_w s) _) as [w ow] eqn:E3.
    destruct (hb_step u (b_r s) _) as [r or] eqn:E4. destruct (hb_step u (b_b s) _) as [b ob] eqn:E5. destruct c; cbn; rewrite ?E1, ?E2, ?E3, ?E4, ?E5; auto.
  Qed.
  Lemma axb_final c s is : pick c (final (axb_step u) s is) = final (hb_step u) (pick c s) (map (chan_in c) is).
  Proof. revert s. induction is as [|i is IH]; intros s; [reflexivity|]. rewrite map_cons, !final_cons, IH. f_equal. apply axb_pick. Qed.
  Lemma axb_trace c s is : map (chan_obs c) (trace (axb_step u) s is) = map hsr_obs (trace (hb_step u) (pick c s) (map (chan_in c) is)).
  Proof.
    revert s. induction is as [|i is IH]; intros s; [reflexivity|]. rewrite (map_cons (chan_in c)), !trace_cons, !map_cons, IH. destruct (axb_pick c s i) as [E1 E2]. rewrite E1.
    f_equal. unfold chan_obs. cbn [fst snd]. rewrite E2. reflexivity.
  Qed.
  Lemma axb_init_ok addr data d0 m x s c : axb_init addr data d0 m x = Some s -> hb_def (depth addr data c) d0 m x = Some (pick c s).
  Proof.
    unfold axb_init. destruct (_ && _); [discriminate|]. destruct (hb_def addr d0 m x) as [a|] eqn:Ea; [|discriminate]. destruct (hb_def data d0 m x) as [d|] eqn:Ed; [|discriminate].
    intros [= <-]. destruct c; cbn; assumption.
  Qed.
  Lemma axb_main addr data d0 m x s is (i j : axb_in A) c : axb_init addr data d0 m x = Some s ->
    let t := map (chan_obs c) (trace (axb_step u) s is) in let d := depth addr data c in let s1 := final (axb_step u) s is in let s2 := fst (axb_step u s1 i) in
    let o1 := chan_out c (snd (axb_step u s1 i)) in let o2 := chan_out c (snd (axb_step u s2 j)) in
    is_buffer d t /\ (stored [] t < d -> ro_rd o1 = true \/ ro_rd o2 = true) /\ (0 < stored [] t -> ro_vld o1 = true \/ ro_vld o2 = true).
  Proof.
    intros H t d s1 s2 o1 o2. pose proof (axb_init_ok _ _ _ _ _ _ c H) as I. unfold t. rewrite axb_trace. split.
    - exact (hb_queue u d None None d0 m x _ _ I).
    - pose proof (hb_live u d d0 m x _ (map (chan_in c) is) (chan_in c i) (chan_in c j) I) as L. cbv zeta in L. rewrite <- axb_final in L. fold s1 in L.
      destruct (axb_pick c s1 i) as [E1 E2]. rewrite <- E1, <- E2 in L. fold s2 o1 in L. destruct (axb_pick c s2 j) as [_ E3]. rewrite <- E3 in L. exact L.
  Qed.
  Lemma axb_builds addr data d0 m x : 0 < addr \/ 0 < data -> exists s : axb_st A, axb_init addr data d0 m x = Some s.
  Proof.
    intros H. unfold axb_init. destruct (hb_builds addr d0 m x) as [a ->]. destruct (hb_builds data d0 m x) as [d ->].
    destruct (Nat.eqb_spec addr 0), (Nat.eqb_spec data 0); cbn; eauto. lia.
  Qed.
End AxiBuff.

Section Mi32.
  Context {P D : Type}.
  Variable u : mrq P.
  Notation step := (mib_step (P := P) (D := D) u).
  Definition hin (i : mib_in P D) : hsr_in (mrq P) := mk_hri (wants (mi_rq i)) (mi_rq i) (mi_ardy i).
  Lemma mib_part s i : mb_a (fst (step s i)) = fst (hb_step u (mb_a s) (hin i)) /\ mo_ardy (snd (step s i)) = ro_rd (snd (hb_step u (mb_a s) (hin i))) /\
    mo_rq (snd (step s i)) = (let o := snd (hb_step u (mb_a s) (hin i)) in (ro_vld o && fst (fst (ro_data o)), ro_vld o && snd (fst (ro_data o)), snd (ro_data o))) /\
    mb_d (fst (step s i)) = regs_next (mi_drd i, mi_drdy i) (mb_d s) /\ (mo_drd (snd (step s i)), mo_drdy (snd (step s i))) = regs_out (mi_drd i, mi_drdy i) (mb_d s).
  Proof.
    unfold mib_step. fold (hin i). destruct (hb_step u (mb_a s) (hin i)) as [a o]. cbn. destruct (regs_out _ _). auto.
  Qed.
  (** the words inside are requests *)
  Definition Good (a : hbuf (mrq P)) (cap : nat) (q : list (mrq P)) : Prop := HB a cap q /\ Forall (fun x => wants x = true) q.
  Lemma good_out a cap q (i : mib_in P D) : Good a cap q -> ro_vld (snd (hb_step u a (hin i))) = true -> wants (ro_data (snd (hb_step u a (hin i)))) = true.
  Proof.
    intros [H F] V.
    assert (In (ro_data (snd (hb_step u a (hin i)))) (q ++ (if wants (mi_rq i) then [mi_rq i] else []))) as I.
    { assert (ro_vld (snd (hb_step u a (mk_hri (wants (mi_rq i)) (mi_rq i) true))) = true /\ ro_data (snd (hb_step u a (mk_hri (wants (mi_rq i)) (mi_rq i) true))) = ro_data (snd (hb_step u a (hin i)))) as [V2 D2].
      { clear H F. unfold hin in *. destruct a as [|r|d s]; cbn [hb_step] in *.
        - cbn in *. auto.
        - destruct r as [ss|br]; cbn [hsreg_step ri_vld ri_data ri_rd] in *.
          + destruct ss as [|s0 ss]; [cbn in *; auto|]. pose proof (chain_out (s0 :: ss) (wants (mi_rq i)) (mi_rq i) true s0) as C1. pose proof (chain_out (s0 :: ss) (wants (mi_rq i)) (mi_rq i) (mi_ardy i) s0) as C2.
            destruct (chain_step (s0 :: ss) _ _ true) as [x1 [[r1 v1] d1]]. destruct (chain_step (s0 :: ss) _ _ (mi_ardy i)) as [x2 [[r2 v2] d2]]. cbn in *.
            destruct C1 as [-> ->]; [discriminate|]. destruct C2 as [-> ->]; [discriminate|]. auto.
          + unfold brk_step in *. cbn in *. auto.
        - pose proof (step_out d s (mk_hin (wants (mi_rq i)) (mi_rq i) true)) as C1. pose proof (step_out d s (mk_hin (wants (mi_rq i)) (mi_rq i) (mi_ardy i))) as C2. cbn [ri_vld ri_data ri_rd] in *.
          destruct (hsf_step d s (mk_hin (wants (mi_rq i)) (mi_rq i) true)) as [s1 o1]. destruct (hsf_step d s (mk_hin (wants (mi_rq i)) (mi_rq i) (mi_ardy i))) as [s2 o2]. cbn in *. subst o1 o2. cbn in *. auto. }
      destruct (hb_law u a cap q (mk_hri (wants (mi_rq i)) (mi_rq i) true) H) as (q' & _ & E). unfold acc1, del1 in E. cbn [hsr_obs out_vld out_rd out_data in_vld in_rd in_data fst snd ri_vld ri_rd ri_data] in E.
      rewrite V2 in E. cbn [andb app] in E. rewrite D2 in E.
      assert (In (ro_data (snd (hb_step u a (hin i)))) (q ++ (if wants (mi_rq i) && ro_rd (snd (hb_step u a (mk_hri (wants (mi_rq i)) (mi_rq i) true))) then [mi_rq i] else []))) as J by (rewrite E; left; reflexivity).
      apply in_app_or in J. apply in_or_app. destruct J as [J|J]; [left; exact J|]. right. destruct (wants (mi_rq i)); [|destruct J]. cbn [andb] in J. destruct (ro_rd _); [exact J|destruct J]. }
    apply in_app_or in I. destruct I as [I|I]; [rewrite Forall_forall in F; apply F, I|]. destruct (wants (mi_rq i)) eqn:W; [|destruct I]. destruct I as [<-|[]]. exact W.
  Qed.
  Lemma good_obs s cap q (i : mib_in P D) : Good (mb_a s) cap q -> mrq_obs (i, snd (step s i)) =
    let o := snd (hb_step u (mb_a s) (hin i)) in mk_hs (wants (mi_rq i)) (ro_rd o) (mi_rq i) (ro_vld o) (mi_ardy i) (if ro_vld o then ro_data o else (false, false, snd (ro_data o))).
  Proof.
    intros G. destruct (mib_part s i) as (_ & E2 & E3 & _). unfold mrq_obs. cbn [fst snd]. rewrite E2, E3. cbv zeta.
    pose proof (good_out (mb_a s) cap q i G) as W. destruct (snd (hb_step u (mb_a s) (hin i))) as [rd v [[r w] p]]. cbn in *. destruct v; cbn; [|reflexivity]. rewrite (W eq_refl). reflexivity.
  Qed.
  Lemma good_step s cap q (i : mib_in P D) : Good (mb_a s) cap q -> exists q', Good (mb_a (fst (step s i))) cap q' /\
    q ++ acc1 (mrq_obs (i, snd (step s i))) = del1 (mrq_obs (i, snd (step s i))) ++ q'.
  Proof.
    intros G. rewrite (good_obs s cap q i G). destruct (mib_part s i) as (-> & _). destruct G as [H F]. destruct (hb_law u (mb_a s) cap q (hin i) H) as (q' & H' & E). exists q'.
    unfold acc1, del1 in *. cbn [hsr_obs out_vld out_rd out_data in_vld in_rd in_data fst snd hin ri_vld ri_rd ri_data] in *. cbv zeta in *.
    assert (q ++ (if wants (mi_rq i) && ro_rd (snd (hb_step u (mb_a s) (hin i))) then [mi_rq i] else []) = (if ro_vld (snd (hb_step u (mb_a s) (hin i))) && mi_ardy i then [ro_data (snd (hb_step u (mb_a s) (hin i)))] else []) ++ q') as E' by exact E.
    split; [split; [exact H'|]|].
    - assert (Forall (fun x => wants x = true) (q ++ (if wants (mi_rq i) && ro_rd (snd (hb_step u (mb_a s) (hin i))) then [mi_rq i] else []))) as FF.
      { apply Forall_app. split; [exact F|]. destruct (wants (mi_rq i)) eqn:W; cbn [andb]; [|constructor]. destruct (ro_rd _); constructor; [exact W|constructor]. }
      rewrite E' in FF. apply Forall_app in FF. apply FF.
    - rewrite E'. destruct (ro_vld (snd (hb_step u (mb_a s) (hin i)))); reflexivity.
  Qed.
  Lemma mib_run s cap q is : Good (mb_a s) cap q -> exists q', Good (mb_a (final step s is)) cap q' /\
    q ++ accepted (map mrq_obs (trace step s is)) = delivered (map mrq_obs (trace step s is)) ++ q'.
  Proof.
    revert s q. induction is as [|i is IH]; intros s q H.
    - exists q. split; [exact H|]. cbn. rewrite app_nil_r. reflexivity.
    - destruct (good_step s cap q i H) as (q1 & H1 & E1). destruct (IH _ _ H1) as (q2 & H2 & E2). exists q2. rewrite final_cons. split; [exact H2|].
      rewrite trace_cons, map_cons, accepted_cons, delivered_cons. fold (acc1 (mrq_obs (i, snd (step s i)))). fold (del1 (mrq_obs (i, snd (step s i)))).
      rewrite app_assoc, E1, <- !app_assoc, E2. reflexivity.
  Qed.
  Lemma mib_stable s cap q is : 0 < cap -> Good (mb_a s) cap q -> out_stable (map mrq_obs (trace step s is)).
  Proof.
    intros Hc. revert s q. induction is as [|i is IH]; intros s q H; [exact Logic.I|]. rewrite trace_cons, map_cons.
    destruct (good_step s cap q i H) as (q1 & H1 & _). pose proof (IH _ _ H1) as T. destruct is as [|j is]; [exact Logic.I|].
    rewrite trace_cons, map_cons in *. split; [|exact T]. rewrite (good_obs s cap q i H), (good_obs _ cap q1 j H1). cbv zeta. cbn [out_vld out_rd out_data]. intros V R.
    destruct (mib_part s i) as (-> & _). pose proof (hb_stable u (mb_a s) cap q (hin i) (hin j) Hc (proj1 H) R V) as [K1 K2]. rewrite K1, K2, V. auto.
  Qed.
  Lemma mib_init_ok addr data d0 m x dd (s : mib_st P D) : mib_init addr data d0 m x dd = Some s -> hb_def addr d0 m x = Some (mb_a s) /\ mb_d s = map (fun k => (dd k, false)) (seq 0 data).
  Proof. unfold mib_init. destruct (hb_def addr d0 m x) as [a|]; [|discriminate]. intros [= <-]. auto. Qed.
  Lemma mib_short s is : Short (mb_a s) -> Short (mb_a (final step s is)).
  Proof. revert s. induction is as [|i is IH]; intros s H; [exact H|]. rewrite final_cons. apply IH. destruct (mib_part s i) as (-> & _). apply short_step, H. Qed.
  Lemma mib_requests addr data d0 m x dd s is (i j : mib_in P D) : mib_init addr data d0 m x dd = Some s ->
    let t := map mrq_obs (trace step s is) in let s1 := final step s is in let o1 := snd (step s1 i) in let o2 := snd (step (fst (step s1 i)) j) in
    is_buffer addr t /\ (stored [] t < addr -> mo_ardy o1 = true \/ mo_ardy o2 = true) /\ (0 < stored [] t -> wants (mo_rq o1) = true \/ wants (mo_rq o2) = true).
  Proof.
    intros H t s1 o1 o2. apply mib_init_ok in H. destruct H as [H _]. pose proof (short_init _ _ _ _ _ H) as S. apply hb_init_ok in H. cbn [holds] in H.
    assert (Good (mb_a s) addr []) as G by (split; [exact H|constructor]). destruct (mib_run s addr [] is G) as (q & Gq & E). fold t in E. cbn [app] in E.
    apply (mib_short s is) in S. fold s1 in S, Gq. destruct (good_step s1 addr q i Gq) as (q1 & G1 & _).
    pose proof (good_obs s1 addr q i Gq) as O1. pose proof (good_obs _ addr q1 j G1) as O2. destruct (mib_part s1 i) as (Ea & _).
    assert (stored [] t = length q) as Es by (unfold stored; rewrite E, app_length; cbn; lia). rewrite Es.
    assert (mo_ardy o1 = ro_rd (snd (hb_step u (mb_a s1) (hin i)))) as R1 by (apply (f_equal in_rd) in O1; exact O1).
    assert (mo_ardy o2 = ro_rd (snd (hb_step u (fst (hb_step u (mb_a s1) (hin i))) (hin j)))) as R2 by (apply (f_equal in_rd) in O2; rewrite <- Ea; exact O2).
    assert (wants (mo_rq o1) = ro_vld (snd (hb_step u (mb_a s1) (hin i)))) as V1 by (apply (f_equal out_vld) in O1; exact O1).
    assert (wants (mo_rq o2) = ro_vld (snd (hb_step u (fst (hb_step u (mb_a s1) (hin i))) (hin j)))) as V2 by (apply (f_equal out_vld) in O2; rewrite <- Ea; exact O2).
    rewrite R1, R2, V1, V2. split; [split|split].
    - exists q. split; [exact E|]. apply (hb_len _ _ _ (proj1 Gq)).
    - intros Hc. exact (mib_stable s addr [] is Hc G).
    - intros L. destruct (hb_room u (mb_a s1) addr q (hin i) (hin j) (proj1 Gq) S L) as [K|[_ K]]; auto.
    - intros L. apply (hb_offer u (mb_a s1) addr q (hin i) (hin j) (proj1 Gq) S). intros ->. cbn in L. lia.
  Qed.
  (** answers *)
  Definition ans (x : D * bool) : option D := if snd x then Some (fst x) else None.
  Lemma regs_shift x (rs : list (D * bool)) : x :: rs = regs_next x rs ++ [regs_out x rs].
  Proof. revert x. induction rs as [|r rs IH]; intros x; [reflexivity|]. cbn [regs_next regs_out app]. rewrite <- IH. reflexivity. Qed.
  Lemma mib_d s is : map ans_s (trace step s is) = firstn (length is) (rev (map ans (mb_d s)) ++ map ans_m (trace step s is)).
  Proof.
    revert s. induction is as [|i is IH]; intros s; [reflexivity|]. rewrite trace_cons, !map_cons. destruct (mib_part s i) as (_ & _ & _ & Ed & Eo).
    assert (ans_s (i, snd (step s i)) = ans (regs_out (mi_drd i, mi_drdy i) (mb_d s))) as -> by (rewrite <- Eo; reflexivity).
    assert (ans_m (i, snd (step s i)) = ans (mi_drd i, mi_drdy i)) as -> by reflexivity.
    pose proof (regs_shift (mi_drd i, mi_drdy i) (mb_d s)) as S. apply (f_equal (fun l => rev (map ans l))) in S. rewrite map_app, rev_app_distr in S. cbn [map rev app] in S.
    change (ans (mi_drd i, mi_drdy i) :: map ans_m (trace step (fst (step s i)) is)) with ([ans (mi_drd i, mi_drdy i)] ++ map ans_m (trace step (fst (step s i)) is)).
    rewrite app_assoc, S. cbn [app length firstn]. f_equal. rewrite IH, Ed. reflexivity.
  Qed.
  Lemma mib_answers addr data d0 m x dd s is : mib_init addr data d0 m x dd = Some s ->
    let t := trace step s is in delayed data (map ans_m t) (map ans_s t).
  Proof.
    intros H t. apply mib_init_ok in H. destruct H as [_ H]. unfold delayed, t. rewrite map_length, trace_length, mib_d, H.
    assert (forall k, rev (map ans (map (fun k => (dd k, false)) (seq k data))) = repeat None data) as ->; [|reflexivity].
    intros k. rewrite map_map. revert k. clear. induction data as [|n IH]; intros k; [reflexivity|]. cbn [seq map rev repeat]. rewrite IH. unfold ans. cbn. symmetry. apply repeat_cons.
  Qed.
  Lemma mib_builds addr data d0 m x (dd : nat -> D) : exists s : mib_st P D, mib_init addr data d0 m x dd = Some s.
  Proof. unfold mib_init. destruct (hb_builds addr d0 m x) as [a ->]. eauto. Qed.
End Mi32.
