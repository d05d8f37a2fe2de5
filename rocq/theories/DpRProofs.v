From Verif Require Import Base BaseFacts FifoModel FifoProofs HsFifoProofs DpModel DpSpec DpProofs DpRModel DpRSpec.

Section AhStep.
  Variables (c : dpcfg) (xl : nat).
  Hypotheses (Hc : dp_cfg_ok c) (HW : 2 <= WB c).
  Definition AInv2 (s : ah_st) (t : list ah_cyc) : Prop :=
    AInv c s t /\ (use_split c = false -> a_pend s = false /\ Forall (fun m => snd m = true) (flat_map ah_info t)).
  Lemma ainv2_init a0 l0 : AInv2 (ah_init a0 l0) [].
  Proof.
    split; [|intros _; split; [reflexivity|constructor]].
    exists [], ([], []). repeat split; try constructor; try reflexivity; discriminate.
  Qed.
  Lemma ainv2_step s t (i : ah_in) :
    (ai_vld i = true -> dreq_ok c (ai_req i) /\ chunk_aligned c (ai_req i) /\ fits c (ai_req i)) ->
    AInv2 s t -> req_kept (t ++ [(i, snd (ah_step c xl s i))]) ->
    AInv2 (fst (ah_step c xl s i)) (t ++ [(i, snd (ah_step c xl s i))]).
  Proof.
    intros Hok [HI H2] Hk. unfold AInv2, ah_step, fits in *. destruct (use_split c) eqn:Eu.
    - split; [|discriminate]. apply (split_step c xl Hc HW); [intros V; split; apply (Hok V)|exact HI|exact Hk].
    - destruct (H2 eq_refl) as [Hp Hm]. split; [|intros _; split; [exact Hp|]].
      + apply (direct_step c Hc HW); [|exact Hp|exact HI].
        intros V. destruct (Hok V) as [A1 [A2 [A3|A3]]]; [apply (split_long c Hc) in A3; congruence|tauto].
      + rewrite flat_map_app. apply Forall_app. split; [exact Hm|]. cbn [flat_map]. rewrite app_nil_r.
        unfold ah_info. cbn [fst snd ah_direct ao_ivld ao_last]. destruct (_ && ai_irdy i); repeat constructor.
  Qed.
  (** burst and note go together *)
  Lemma burst_info s (i : ah_in) : length (ah_burst (i, snd (ah_step c xl s i))) = length (ah_info (i, snd (ah_step c xl s i))).
  Proof.
    unfold ah_burst, ah_info, ah_step. destruct (use_split c); cbn [fst snd ah_split ah_direct ao_vld ao_ivld].
    - set (o := alignment_error c (q_addr (ai_req i))). cbv zeta. cbn [snd ao_vld ao_ivld]. fold o.
      match goal with |- context [ai_vld i || ?p] => generalize p; intros pe end.
      destruct (ai_vld i), (ai_rdy i), (ai_irdy i), (ai_err i), o, pe; reflexivity.
    - destruct (ai_vld i), (ai_rdy i), (ai_irdy i), (ai_err i), (alignment_error c (q_addr (ai_req i))); reflexivity.
  Qed.
End AhStep.

(** the pattern of the answers *)
Section Pat.
  Context {M : Type}.
  Variable z : M.
  Definition pat (bm : (nat * nat) * M) : list M := repeat z (snd (fst bm)) ++ [snd bm].
  Lemma pat_len l : length (flat_map pat l) = length (flat_map burst_lasts (map fst l)).
  Proof. induction l as [|[b m] l IH]; [reflexivity|]. cbn [flat_map map fst]. rewrite !app_length, IH. unfold pat, burst_lasts. cbn [fst snd]. rewrite !app_length, !repeat_length. reflexivity. Qed.
  Lemma pat_nth l k x : nth_error (flat_map burst_lasts (map fst l)) k = Some x ->
    exists b m, nth_error l (length (filter (fun y => y) (firstn k (flat_map burst_lasts (map fst l))))) = Some (b, m) /\
      nth_error (flat_map pat l) k = Some (if x then m else z).
  Proof.
    revert k. induction l as [|[b m] l IH]; intros k H; [destruct k; discriminate|].
    cbn [flat_map map fst] in *. unfold burst_lasts at 1 in H. unfold burst_lasts at 1. unfold pat at 1. cbn [fst snd].
    assert (forall n, filter (fun y : bool => y) (repeat false n) = []) as Hf by (induction n; [reflexivity|exact IHn]).
    destruct (Nat.lt_trichotomy k (snd b)) as [L|[L|L]].
    - exists b, m. rewrite <- !app_assoc in *. rewrite nth_error_app1 in H |- * by (rewrite repeat_length; exact L).
      rewrite firstn_app, repeat_length. replace (k - snd b) with 0 by lia. rewrite firstn_O, app_nil_r.
      rewrite nth_error_repeat in H |- * by exact L. injection H as <-.
      replace (firstn k (repeat false (snd b))) with (repeat false k).
      + rewrite Hf. split; reflexivity.
      + clear -L. revert k L. induction (snd b) as [|n IH]; intros k L; [lia|]. destruct k as [|k]; [reflexivity|].
        cbn [repeat firstn]. f_equal. apply IH. lia.
    - subst k. exists b, m. rewrite <- !app_assoc in *. rewrite nth_error_app2 in H |- * by (rewrite repeat_length; lia).
      rewrite repeat_length, Nat.sub_diag in *. cbn in H |- *. injection H as <-.
      rewrite firstn_app, repeat_length, Nat.sub_diag, firstn_O, app_nil_r, firstn_all2 by (rewrite repeat_length; lia).
      rewrite Hf. split; reflexivity.
    - rewrite nth_error_app2 in H |- * by (rewrite app_length, repeat_length; cbn; lia).
      rewrite app_length, repeat_length in *. cbn [length] in *.
      rewrite firstn_app, app_length, repeat_length. cbn [length].
      rewrite firstn_all2 by (rewrite app_length, repeat_length; cbn; lia). rewrite !filter_app, Hf. cbn [filter app length].
      destruct (IH _ H) as [b' [m' [E1 E2]]]. exists b', m'. split; [exact E1|exact E2].
  Qed.
End Pat.

Lemma firstn_snoc_nth {A} (l : list A) k x : nth_error l k = Some x -> firstn (k + 1) l = firstn k l ++ [x].
Proof. revert k. induction l as [|a l IH]; intros [|k] H; try discriminate; cbn in *; [injection H as ->; reflexivity|]. f_equal. apply IH, H. Qed.
Lemma firstn_app_le {A} n (a b : list A) : n <= length a -> firstn n (a ++ b) = firstn n a.
Proof. intros H. rewrite firstn_app. replace (n - length a) with 0 by lia. rewrite firstn_O, app_nil_r. reflexivity. Qed.
Lemma combine_app2 {A B} (a a' : list A) (b b' : list B) : length a = length b -> combine (a ++ a') (b ++ b') = combine a b ++ combine a' b'.
Proof. revert b. induction a as [|x a IH]; intros [|y b] H; try discriminate; [reflexivity|]. cbn in *. f_equal. apply IH. lia. Qed.
Lemma map_fst_combine {A B} (a : list A) (b : list B) : length a = length b -> map fst (combine a b) = a.
Proof. revert b. induction a as [|x a IH]; intros [|y b] H; try discriminate; [reflexivity|]. cbn in *. f_equal. apply IH. lia. Qed.
Lemma nth_error_skipn_hd {A} n (l : list A) x r : skipn n l = x :: r -> nth_error l n = Some x.
Proof. revert l. induction n as [|n IH]; intros [|a l] H; try discriminate; [injection H as ->; reflexivity|apply IH, H]. Qed.
Lemma skipn_S_tl {A} n (l : list A) x r : skipn n l = x :: r -> skipn (n + 1) l = r.
Proof. revert l. induction n as [|n IH]; intros [|a l] H; try discriminate; [injection H as _ ->; reflexivity|]. cbn [skipn Nat.add] in *. apply IH, H. Qed.

Section R.
  Context {D : Type}.
  Variables (c : dpcfg) (xl : nat).
  Hypotheses (Hc : dp_cfg_ok c) (HW : 2 <= WB c) (HA : AL c = WB c) (HD : 2 <= OVERLAP c).
  Notation step := (@rp_step D c xl).
  Notation cyc := (rp_in D * rp_out D)%type.

  Definition same (x : ah_cyc) (y : cyc) : Prop :=
    ai_vld (fst x) = pi_vld (fst y) /\ ai_req (fst x) = pi_req (fst y) /\ ai_rdy (fst x) = pi_arrdy (fst y) /\
    ao_rd (snd x) = po_rd (snd y) /\ ao_vld (snd x) = po_arv (snd y) /\ ao_addr (snd x) = po_addr (snd y) /\ ao_len (snd x) = po_len (snd y).
  Lemma same_taken ta t : Forall2 same ta t -> flat_map ah_taken ta = flat_map rp_taken t.
  Proof. induction 1 as [|x y ta t [E1 [E2 [E3 [E4 _]]]] _ IH]; [reflexivity|]. cbn [flat_map]. rewrite IH. unfold ah_taken, rp_taken. rewrite E1, E2, E4. reflexivity. Qed.
  Lemma same_burst ta t : Forall2 same ta t -> flat_map ah_burst ta = flat_map rp_burst t.
  Proof. induction 1 as [|x y ta t [E1 [E2 [E3 [E4 [E5 [E6 E7]]]]]] _ IH]; [reflexivity|]. cbn [flat_map]. rewrite IH. unfold ah_burst, rp_burst. rewrite E3, E5, E6, E7. reflexivity. Qed.
  Lemma same_kept ta t : Forall2 same ta t -> rp_kept t -> req_kept ta.
  Proof.
    intros F K t1 x y t2 ->. apply Forall2_app_inv_l in F. destruct F as [u1 [u [F1 [F2 ->]]]].
    inversion F2 as [|x' p l1 l2 Sx F3]; subst. inversion F3 as [|y' q l3 l4 Sy F4]; subst.
    destruct Sx as [X1 [X2 [_ [X4 _]]]]. destruct Sy as [Y1 [Y2 _]].
    rewrite X1, X4, Y1, Y2, X2. apply (K u1 p q l4). reflexivity.
  Qed.

  Definition mark (m : dreq * bool) : list bool * bool :=
    if snd m then (strb_of (WB c) (q_rem (fst m)), true) else (repeat true (WB c), false).
  Definition conv (m : dreq * bool) : nat * bool := (if snd m then q_rem (fst m) else 0, snd m).
  Notation ends l := (length (filter snd l)).
  Notation zz := (repeat true (WB c), false).
  Definition P (ta : list ah_cyc) := flat_map (pat zz) (combine (flat_map ah_burst ta) (map mark (flat_map ah_info ta))).

  Record RPInv (s : rp_st) (t : list cyc) (ta : list ah_cyc) : Prop := {
    rv_same : Forall2 same ta t;
    rv_ah : AInv2 c (p_ah s) ta;
    rv_len : length (flat_map ah_burst ta) = length (flat_map ah_info ta);
    rv_f : HRep (OVERLAP c) (p_f s) (map conv (skipn (ends (flat_map (rp_beat c) t)) (flat_map ah_info ta)));
    rv_err : p_err s = false /\ p_aerr s = false;
    rv_d : map fst (flat_map rp_word t) = map fst (flat_map (rp_beat c) t);
    rv_m : map snd (flat_map rp_word t) = firstn (length (flat_map (rp_beat c) t)) (P ta) }.

  Lemma rem_strb_eq rem : rem_strb c rem = strb_of (WB c) rem.
  Proof.
    unfold rem_strb, strb_of. apply map_ext_in. intros k Hk. apply in_seq in Hk.
    destruct (Nat.eqb_spec rem 0); [|reflexivity]. cbn [orb]. symmetry. apply Nat.ltb_lt. lia.
  Qed.
  Lemma ends_filter (l : list (D * bool)) : length (filter (fun y => y) (map snd l)) = ends l.
  Proof. induction l as [|[d b] l IH]; [reflexivity|]. cbn. destruct b; cbn; rewrite IH; reflexivity. Qed.

  Lemma rp_inv_step s t ta (i : rp_in D) : rp_env c i -> rp_kept (t ++ [(i, snd (step s i))]) -> rp_answers c (t ++ [(i, snd (step s i))]) ->
    RPInv s t ta -> exists x, RPInv (fst (step s i)) (t ++ [(i, snd (step s i))]) (ta ++ [x]).
  Proof.
    intros [He1 He2] Hk Ha [Hs Hah Hlen Hf [Ee Eae] Hd Hm].
    set (f := p_f s) in *.
    set (ai := mk_ahi (pi_vld i) (pi_req i) (pi_arrdy i) (negb (f_wwait (hf f))) false).
    destruct (ah_step c xl (p_ah s) ai) as [ah' ao] eqn:Eah.
    destruct (dreg (hf f)) as [rem plast] eqn:Edr.
    set (in_last := if LW c =? 0 then true else pi_last i) in *.
    set (last := if use_split c then plast && in_last else in_last).
    set (fi := mk_hin (ao_ivld ao) (if ao_last ao then q_rem (pi_req i) else 0, ao_last ao) (pi_v i && pi_rdy i && in_last)).
    set (o := mk_rpo (ao_rd ao) (ao_vld ao) (ao_addr ao) (ao_len ao) (ovld f && pi_rdy i) (pi_v i && ovld f && negb false) (pi_d i)
            (if pi_v i && last then rem_strb c rem else repeat true (WB c)) last false false).
    assert (exists e1 e2, step s i = (mk_rp ah' (fst (hsf_step (OVERLAP c) f fi)) e1 e2, o) /\ e1 = false /\ e2 = false) as [e1 [e2 [Es [-> ->]]]].
    { unfold rp_step. fold f. rewrite Ee, Eae. cbn [orb]. fold ai. rewrite Eah, Edr. fold in_last. fold last. fold fi.
      eexists _, _. split; [reflexivity|]. split.
      - destruct (pi_v i); [rewrite (He1 eq_refl)|]; reflexivity.
      - destruct (Nat.eqb_spec (AL c) 1) as [_|Ha1]; [reflexivity|].
        destruct (pi_vld i); [|reflexivity]. destruct (He2 eq_refl) as [[_ [_ [_ Hal]]] _].
        destruct Hc as [_ [[k Ek] _]]. destruct k as [|k]; [cbn in Ek; congruence|].
        assert (2 ^ log2ceil (AL c) = AL c) as El by (rewrite Ek, (log2ceil_pow c) by lia; reflexivity). rewrite El, Hal. reflexivity. }
    rewrite Es in *. cbn [fst snd] in *. exists (ai, ao).
    assert (same (ai, ao) (i, o)) as Hso by (repeat split).
    assert (Forall2 same (ta ++ (@cons ah_cyc (ai, ao) [])) (t ++ [(i, o)])) as Hs' by (apply Forall2_app; [exact Hs|constructor; [exact Hso|constructor]]).
    assert (AInv2 c ah' (ta ++ (@cons ah_cyc (ai, ao) []))) as Hah'.
    { pose proof (ainv2_step c xl Hc HW (p_ah s) ta ai He2 Hah) as G. rewrite Eah in G. cbn [fst snd] in G. apply G. exact (same_kept _ _ Hs' Hk). }
    pose proof (burst_info c xl (p_ah s) ai) as Hbi. rewrite Eah in Hbi. cbn [snd] in Hbi.
    assert (length (flat_map ah_burst (ta ++ (@cons ah_cyc (ai, ao) []))) = length (flat_map ah_info (ta ++ (@cons ah_cyc (ai, ao) [])))) as Hlen'.
    { rewrite !flat_map_app, !app_length. cbn [flat_map]. rewrite !app_nil_r. lia. }
    set (I0 := flat_map ah_info ta) in *. set (R := flat_map (rp_beat c) t) in *.
    pose proof (hrep_step (OVERLAP c) HD f _ fi Hf) as H. cbv zeta in H.
    rewrite step_out in H. cbn [h_rd h_vld h_data i_vld i_data i_rd fi] in H. rewrite Edr in H.
    destruct H as [Hr [Hh _]].
    (* the notes *)
    assert (map conv (ah_info (ai, ao)) = if ao_ivld ao && negb (f_wwait (hf f)) then [(if ao_last ao then q_rem (pi_req i) else 0, ao_last ao)] else []) as Hinf.
    { unfold ah_info. cbn [fst snd ai ai_irdy]. destruct (ao_ivld ao && negb (f_wwait (hf f))); reflexivity. }
    (* beat *)
    assert (length R <= length (P ta)) as HRP.
    { destruct (Ha t [(i, o)] eq_refl) as [more E]. fold R in E. apply (f_equal (@length bool)) in E. rewrite app_length, map_length in E.
      unfold P. rewrite pat_len, map_fst_combine by (rewrite map_length; exact Hlen). rewrite (same_burst _ _ Hs). lia. }
    assert (exists more, P (ta ++ (@cons ah_cyc (ai, ao) [])) = P ta ++ more) as [more HPm].
    { unfold P. rewrite !flat_map_app, map_app. cbn [flat_map]. rewrite combine_app2 by (rewrite map_length; exact Hlen). rewrite flat_map_app. eauto. }
    assert (rp_beat c (i, o) = [] /\ rp_word (i, o) = [] /\ ovld f && (pi_v i && pi_rdy i && in_last) = false \/
            rp_beat c (i, o) = [(pi_d i, in_last)] /\ rp_word (i, o) = [(pi_d i, (if last then rem_strb c rem else repeat true (WB c), last))] /\
              ovld f = true /\ ovld f && (pi_v i && pi_rdy i && in_last) = in_last) as Hb.
    { unfold rp_beat, rp_word. cbn [fst snd o po_rrdy po_v po_d po_strb po_last]. fold in_last.
      destruct (ovld f), (pi_v i), (pi_rdy i); cbn [andb negb]; auto. }
    constructor; cbn [p_ah p_f p_err p_aerr]; try assumption.
    - rewrite !flat_map_app. cbn [flat_map]. rewrite !app_nil_r. fold I0 R. rewrite filter_app, app_length.
      destruct Hb as [[B1 [B2 B3]]|[B1 [B2 [B3 B4]]]].
      + rewrite B1. cbn [filter length]. rewrite Nat.add_0_r. rewrite B3 in Hr.
        destruct (Nat.le_gt_cases (ends R) (length I0)) as [L|L].
        * rewrite skipn_app. replace (ends R - length I0) with 0 by lia. cbn [skipn]. rewrite map_app, Hinf. exact Hr.
        * (* more ends than notes: impossible *)
          exfalso. destruct (Ha t [(i, o)] eq_refl) as [mo E]. fold R in E. apply (f_equal (fun l => length (filter (fun y : bool => y) l))) in E.
          rewrite filter_app, app_length, ends_filter in E.
          assert (forall bs, length (filter (fun y : bool => y) (flat_map burst_lasts bs)) = length bs) as Hfl.
          { induction bs as [|b bs IH]; [reflexivity|]. cbn [flat_map]. rewrite filter_app, app_length, IH. unfold burst_lasts. rewrite filter_app, app_length.
            replace (filter (fun y : bool => y) (repeat false (snd b))) with (@nil bool) by (induction (snd b); [reflexivity|assumption]). reflexivity. }
          rewrite Hfl, <- (same_burst _ _ Hs), Hlen in E. lia.
      + rewrite B1. cbn [filter snd]. rewrite B4 in Hr. destruct (Hh B3) as [r Eq].
        assert (ends R < length I0) as L.
        { apply (f_equal (@length (nat * bool))) in Eq. rewrite map_length, skipn_length in Eq. cbn in Eq. lia. }
        destruct in_last; cbn [length].
        * rewrite skipn_app. replace (ends R + 1 - length I0) with 0 by lia. cbn [skipn]. rewrite map_app, Hinf.
          destruct (skipn (ends R) I0) as [|z0 r0] eqn:Esk; [discriminate|]. rewrite (skipn_S_tl _ _ _ _ Esk). exact Hr.
        * rewrite Nat.add_0_r, skipn_app. replace (ends R - length I0) with 0 by lia. cbn [skipn]. rewrite map_app, Hinf. exact Hr.
    - auto.
    - rewrite !flat_map_app, !map_app. fold R. cbn [flat_map]. rewrite !app_nil_r, Hd.
      destruct Hb as [[B1 [B2 B3]]|[B1 [B2 [B3 B4]]]]; rewrite B1, B2; reflexivity.
    - rewrite !flat_map_app, !map_app. fold R. cbn [flat_map]. rewrite !app_nil_r, Hm, app_length.
      destruct Hb as [[B1 [B2 B3]]|[B1 [B2 [B3 B4]]]]; rewrite B1, B2; cbn [map length].
      + rewrite Nat.add_0_r, app_nil_r. rewrite HPm, firstn_app_le by exact HRP. reflexivity.
      + destruct (Ha (t ++ [(i, o)]) [] (eq_sym (app_nil_r _))) as [mo E].
        rewrite (flat_map_app (rp_beat c)), map_app in E. fold R in E. cbn [flat_map] in E. rewrite app_nil_r, B1 in E. cbn [map snd] in E.
        rewrite <- (same_burst _ _ Hs'), <- app_assoc in E. cbn [app] in E.
        set (BI := combine (flat_map ah_burst (ta ++ (@cons ah_cyc (ai, ao) []))) (map mark (flat_map ah_info (ta ++ (@cons ah_cyc (ai, ao) []))))).
        assert (map fst BI = flat_map ah_burst (ta ++ (@cons ah_cyc (ai, ao) []))) as EBI by (apply map_fst_combine; rewrite map_length; exact Hlen').
        assert (nth_error (flat_map burst_lasts (map fst BI)) (length R) = Some in_last) as En.
        { rewrite EBI, E, nth_error_app2 by (rewrite map_length; lia). rewrite map_length, Nat.sub_diag. reflexivity. }
        destruct (pat_nth zz BI _ _ En) as [b [m [N1 N2]]].
        assert (firstn (length R) (flat_map burst_lasts (map fst BI)) = map snd R) as Efn.
        { rewrite EBI, E, firstn_app, map_length, Nat.sub_diag, firstn_O, app_nil_r, firstn_all2 by (rewrite map_length; lia). reflexivity. }
        rewrite Efn, ends_filter in N1.
        change (flat_map (pat zz) BI) with (P (ta ++ (@cons ah_cyc (ai, ao) []))) in N2.
        rewrite (firstn_snoc_nth _ _ _ N2). rewrite HPm, (firstn_app_le _ (P ta) more) by exact HRP. f_equal. f_equal.
        (* the note of the current burst *)
        destruct (Hh B3) as [r Eq]. destruct (skipn (ends R) I0) as [|[q0 l0] r0] eqn:Esk; [discriminate|]. cbn [map] in Eq. injection Eq as Eq1 Eq2.
        apply nth_error_skipn_hd in Esk.
        assert (m = mark (q0, l0)) as ->.
        { unfold BI in N1. apply (f_equal (option_map snd)) in N1. rewrite <- nth_error_map in N1. cbn [option_map snd] in N1.
          assert (map snd (combine (flat_map ah_burst (ta ++ (@cons ah_cyc (ai, ao) []))) (map mark (flat_map ah_info (ta ++ (@cons ah_cyc (ai, ao) []))))) = map mark (flat_map ah_info (ta ++ (@cons ah_cyc (ai, ao) [])))) as Ems.
          { assert (forall (A B : Type) (a : list A) (b : list B), length a = length b -> map snd (combine a b) = b) as G.
            { clear. induction a as [|x a IH]; intros [|y b] H; try discriminate; [reflexivity|]. cbn in *. f_equal. apply IH. lia. }
            apply G. rewrite map_length. exact Hlen'. }
          rewrite Ems in N1. rewrite nth_error_map, flat_map_app, nth_error_app1 in N1.
          - fold I0 in N1. rewrite Esk in N1. cbn in N1. congruence.
          - fold I0. apply nth_error_Some. congruence. }
        assert (last = l0 && in_last) as El.
        { unfold last. destruct (use_split c) eqn:Eu; [rewrite <- Eq2; reflexivity|].
          destruct (proj2 Hah Eu) as [_ Hmt]. rewrite Forall_forall in Hmt. specialize (Hmt (q0, l0) (nth_error_In _ _ Esk)). cbn in Hmt. rewrite Hmt. reflexivity. }
        rewrite El, rem_strb_eq. unfold mark. cbn [snd fst]. rewrite <- Eq1.
        destruct l0, in_last; reflexivity.
  Qed.

  Lemma kept_prefix (t : list cyc) y : rp_kept (t ++ [y]) -> rp_kept t.
  Proof. intros H t1 x z t2 E. apply (H t1 x z (t2 ++ [y])). rewrite E, <- app_assoc. reflexivity. Qed.
  Lemma answers_prefix (t : list cyc) y : rp_answers c (t ++ [y]) -> rp_answers c t.
  Proof. intros H t1 t2 E. apply (H t1 (t2 ++ [y])). rewrite E, <- app_assoc. reflexivity. Qed.

  Lemma rp_inv_run a0 l0 m0 d0 (is : list (rp_in D)) : Forall (rp_env c) is ->
    rp_kept (trace step (rp_init c a0 l0 m0 d0) is) -> rp_answers c (trace step (rp_init c a0 l0 m0 d0) is) ->
    exists ta, RPInv (final step (rp_init c a0 l0 m0 d0) is) (trace step (rp_init c a0 l0 m0 d0) is) ta.
  Proof.
    induction is as [|i is IH] using rev_ind; intros He Hk Ha.
    - exists []. constructor; try constructor; try reflexivity.
      + apply (proj1 (ainv2_init c a0 l0)).
      + apply (proj2 (ainv2_init c a0 l0)).
      + cbn. apply (hrep_init (OVERLAP c) HD [] m0 d0). left. cbn. lia.
    - apply Forall_app in He. destruct He as [He1 He2]. inversion_clear He2 as [|? ? He3 _].
      rewrite final_snoc, trace_snoc in *.
      destruct (IH He1 (kept_prefix _ _ Hk) (answers_prefix _ _ Ha)) as [ta Hi].
      destruct (rp_inv_step _ _ ta i He3 Hk Ha Hi) as [x Hx]. exists (ta ++ [x]). exact Hx.
  Qed.

  (** the marks of whole and partly served requests *)
  Lemma beats_len (bs : list (nat * nat)) : length (flat_map (beats (WB c) (AW c)) bs) = length (flat_map burst_lasts bs).
  Proof. induction bs as [|b bs IH]; [reflexivity|]. cbn [flat_map]. rewrite !app_length, IH. unfold beats, burst_lasts. rewrite map_length, seq_length, app_length, repeat_length. reflexivity. Qed.
  Lemma pat_rep (bs : list (nat * nat)) : flat_map (pat zz) (combine bs (repeat zz (length bs))) = repeat zz (length (flat_map burst_lasts bs)).
  Proof.
    induction bs as [|b bs IH]; [reflexivity|]. cbn [length repeat combine flat_map]. rewrite IH, app_length, repeat_app. f_equal.
    unfold pat, burst_lasts. cbn [fst snd]. rewrite app_length, repeat_length, repeat_app. reflexivity.
  Qed.
  Lemma map_mark_rep (q : dreq) n : map mark (repeat (q, false) n) = repeat zz n.
  Proof. induction n as [|n IH]; [reflexivity|]. cbn [repeat map]. rewrite IH. reflexivity. Qed.
  Lemma words_len q : length (word_addrs (WB c) (AW c) q) = req_words (WB c) q.
  Proof. unfold word_addrs. rewrite map_length, seq_length. reflexivity. Qed.
  Lemma served_marks q bs ms : served c q bs ms ->
    length bs = length ms /\ flat_map (pat zz) (combine bs (map mark ms)) = req_marks (WB c) q.
  Proof.
    intros [Hw _ _ [-> Hn]]. destruct (exists_last Hn) as [bs' [b ->]]. rewrite app_length. cbn [length].
    replace (length bs' + 1 - 1) with (length bs') by lia. split; [rewrite app_length, repeat_length; reflexivity|].
    rewrite map_app, map_mark_rep. rewrite combine_app2 by (rewrite repeat_length; reflexivity).
    rewrite flat_map_app, pat_rep. cbn [map combine flat_map]. rewrite app_nil_r. unfold pat at 1. cbn [fst snd]. rewrite app_assoc, <- repeat_app.
    unfold req_marks. f_equal. f_equal. rewrite <- (words_len q), <- Hw, beats_len, flat_map_app, app_length. cbn [flat_map]. unfold burst_lasts at 3.
    rewrite app_nil_r, app_length, repeat_length. cbn [length]. lia.
  Qed.
  Lemma begun_marks q bs ms : begun c q bs ms ->
    length bs = length ms /\ exists more, req_marks (WB c) q = flat_map (pat zz) (combine bs (map mark ms)) ++ more.
  Proof.
    intros [[m [Hw Hm]] _ ->]. split; [rewrite repeat_length; reflexivity|]. rewrite map_mark_rep, pat_rep, <- beats_len, Hw, firstn_length, words_len.
    unfold req_marks. replace (req_words (WB c) q - 1) with (Nat.min m (req_words (WB c) q) + (req_words (WB c) q - 1 - m)) by lia.
    rewrite repeat_app, <- app_assoc. eauto.
  Qed.

  Lemma gs_marks taken gs : Forall2 (fun q g => served c q (fst g) (snd g)) taken gs ->
    length (flat_map fst gs) = length (flat_map snd gs) /\
    flat_map (pat zz) (combine (flat_map fst gs) (map mark (flat_map snd gs))) = flat_map (req_marks (WB c)) taken.
  Proof.
    induction 1 as [|q g taken gs Hq _ [IH1 IH2]]; [split; reflexivity|]. destruct (served_marks _ _ _ Hq) as [L E].
    cbn [flat_map]. rewrite !app_length, map_app, combine_app2, flat_map_app, E, IH2 by (rewrite map_length; exact L). split; [lia|reflexivity].
  Qed.

  Lemma rp_inv_law s t ta : rp_answers c t -> RPInv s t ta -> rp_law c t.
  Proof.
    intros Ha [Hs [Hah _] Hlen _ _ Hd Hm]. destruct (inv_law c HW s.(p_ah) ta Hah) as [gs [rest [Hg [Hb [Hi Hr]]]]].
    destruct (gs_marks _ _ Hg) as [Lg Eg].
    assert (length (flat_map (rp_beat c) t) <= length (P ta)) as HRP.
    { destruct (Ha t [] (eq_sym (app_nil_r _))) as [more E]. apply (f_equal (@length bool)) in E. rewrite app_length, map_length in E.
      unfold P. rewrite pat_len, map_fst_combine by (rewrite map_length; exact Hlen). rewrite (same_burst _ _ Hs). lia. }
    assert (exists more, flat_map (req_marks (WB c)) (rp_started t) = P ta ++ more) as [more HP].
    { assert (P ta = flat_map (req_marks (WB c)) (flat_map rp_taken t) ++ flat_map (pat zz) (combine (fst rest) (map mark (snd rest)))) as EP.
      { unfold P. rewrite Hb, Hi, map_app, combine_app2 by (rewrite map_length; exact Lg). rewrite flat_map_app, Eg, (same_taken _ _ Hs). reflexivity. }
      rewrite EP. clear EP. unfold rp_started. rewrite (flat_map_app (req_marks (WB c))).
      setoid_rewrite <- app_assoc.
      destruct Hr as [-> | [t1 [x [-> [V [Rd B]]]]]]; [eexists; f_equal; reflexivity|].
      apply Forall2_app_inv_l in Hs. destruct Hs as [u1 [u2 [_ [F2 ->]]]]. inversion F2 as [|? y ? ? Sx F3]; subst. inversion F3; subst.
      rewrite rev_app_distr. cbn [rev app]. destruct Sx as [X1 [X2 [_ [X4 _]]]]. unfold rp_offered. rewrite <- X1, <- X4, V, Rd, <- X2. cbn [andb negb flat_map].
      destruct (begun_marks _ _ _ B) as [_ [mo ->]]. rewrite app_nil_r. exists mo. reflexivity. }
    split; [|split; [exact Hd|rewrite Hm, HP, firstn_app_le by exact HRP; reflexivity]].
    exists (map fst gs), (fst rest). split; [|split].
    - rewrite <- (same_taken _ _ Hs). clear -Hg. induction Hg as [|q g qs gs [Hq1 Hq2 _ _] _ IH]; constructor; [split; assumption|exact IH].
    - rewrite <- (same_burst _ _ Hs), Hb. f_equal. clear. induction gs as [|g gs IH]; [reflexivity|]. cbn. f_equal. exact IH.
    - destruct Hr as [-> | [t1 [x [-> [V [Rd B]]]]]]; [left; reflexivity|right].
      apply Forall2_app_inv_l in Hs. destruct Hs as [u1 [u2 [_ [F2 ->]]]]. inversion F2 as [|? y ? ? Sx F3]; subst. inversion F3; subst.
      exists u1, y. split; [reflexivity|]. destruct Sx as [X1 [X2 [_ [X4 _]]]]. unfold rp_offered. rewrite <- X1, <- X4, V, Rd, <- X2.
      split; [discriminate|]. destruct B as [[m [B1 B2]] B3 _]. split; [eapply Forall_impl; [|exact B3]; intros b Eb; cbn in Eb |- *; lia|]. exists m. split; [exact B1|lia].
  Qed.

  Lemma rp_run_law a0 l0 m0 d0 (is : list (rp_in D)) : Forall (rp_env c) is ->
    rp_kept (trace step (rp_init c a0 l0 m0 d0) is) -> rp_answers c (trace step (rp_init c a0 l0 m0 d0) is) ->
    rp_law c (trace step (rp_init c a0 l0 m0 d0) is).
  Proof. intros He Hk Ha. destruct (rp_inv_run a0 l0 m0 d0 is He Hk Ha) as [ta Hi]. exact (rp_inv_law _ _ ta Ha Hi). Qed.

  (** Errors are sticky and nothing is issued, taken or delivered once one is flagged. *)
  Lemma rp_err_step s (i : rp_in D) : p_err s || p_aerr s = true ->
    p_err (fst (step s i)) || p_aerr (fst (step s i)) = true /\
    rp_burst (i, snd (step s i)) = [] /\ rp_taken (i, snd (step s i)) = [] /\ rp_word (i, snd (step s i)) = [].
  Proof.
    intros E. unfold rp_step. rewrite E. destruct (ah_step c xl (p_ah s) _) as [ah' ao] eqn:Eah. destruct (dreg (hf (p_f s))) as [rem plast].
    cbn [fst snd p_err p_aerr]. split; [|split; [|split]].
    - replace (AL c =? 1) with false by (symmetry; apply Nat.eqb_neq; clear -HA HW; lia). apply orb_true_iff in E.
      destruct E as [-> | ->]; cbn [orb]; [reflexivity|apply orb_true_r].
    - unfold rp_burst. cbn [fst snd po_arv po_addr po_len]. replace (ao_vld ao) with false; [reflexivity|].
      apply (f_equal snd) in Eah. cbn [snd] in Eah. rewrite <- Eah. unfold ah_step. destruct (use_split c); cbn; rewrite andb_false_r; reflexivity.
    - unfold rp_taken. cbn [fst snd po_rd]. replace (ao_rd ao) with false; [rewrite andb_false_r; reflexivity|].
      apply (f_equal snd) in Eah. cbn [snd] in Eah. rewrite <- Eah. unfold ah_step. destruct (use_split c); cbn; rewrite andb_false_r; reflexivity.
    - unfold rp_word. cbn [fst snd po_v]. rewrite andb_false_r. reflexivity.
  Qed.
End R.

Section Err.
  Context {D : Type}.
  Lemma rp_err_run c xl (is : list (rp_in D)) s : AL c = WB c -> 2 <= WB c -> p_err s || p_aerr s = true ->
    flat_map rp_burst (trace (rp_step c xl) s is) = [] /\ flat_map rp_taken (trace (rp_step c xl) s is) = [] /\ flat_map rp_word (trace (rp_step c xl) s is) = [] /\
    Forall (fun y => po_err (snd y) || po_aerr (snd y) = true) (trace (rp_step c xl) s is).
  Proof.
    intros HA HW. revert s. induction is as [|i is IH]; intros s E; [repeat split; constructor|].
    destruct (rp_err_step c xl HW HA s i E) as [E' [E1 [E2 E3]]]. destruct (IH _ E') as [I1 [I2 [I3 I4]]].
    rewrite trace_cons. cbn [flat_map]. rewrite E1, E2, E3, I1, I2, I3. repeat split. constructor; [|exact I4].
    cbn [snd]. unfold rp_step. destruct (ah_step _ _ _ _), (dreg _). exact E.
  Qed.
  Lemma rp_error c xl a0 l0 m0 d0 (is : list (rp_in D)) t1 x t2 : AL c = WB c -> 2 <= WB c ->
    trace (rp_step c xl) (rp_init c a0 l0 m0 d0) is = t1 ++ x :: t2 ->
    (po_err (snd x) || po_aerr (snd x) = true ->
       flat_map rp_burst (x :: t2) = [] /\ flat_map rp_taken (x :: t2) = [] /\ flat_map rp_word (x :: t2) = []) /\
    (pi_v (fst x) && negb (pi_okay (fst x)) || pi_vld (fst x) && negb (q_addr (pi_req (fst x)) mod WB c =? 0) = true ->
       dp_cfg_ok c -> Forall (fun y => po_err (snd y) || po_aerr (snd y) = true) t2).
  Proof.
    intros HA HW. generalize (rp_init c a0 l0 m0 d0). revert is. induction t1 as [|z t1 IH]; intros is s E.
    - destruct is as [|i is]; [discriminate|]. rewrite trace_cons in E. cbn [app] in E. injection E as Ex Et. split.
      + intros Hf. assert (p_err s || p_aerr s = true) as Hs.
        { rewrite <- Ex in Hf. cbn [snd] in Hf. unfold rp_step in Hf. destruct (ah_step _ _ _ _), (dreg _). exact Hf. }
        pose proof (rp_err_run c xl (i :: is) s HA HW Hs) as R. rewrite trace_cons, Ex, Et in R. tauto.
      + intros Hf Hc. rewrite <- Ex in Hf. cbn [fst] in Hf.
        rewrite <- Et. refine (proj2 (proj2 (proj2 (rp_err_run c xl is _ HA HW _)))).
        unfold rp_step. destruct (ah_step _ _ _ _), (dreg _). cbn [fst p_err p_aerr].
        replace (AL c =? 1) with false by (symmetry; apply Nat.eqb_neq; lia).
        destruct (wb_bits c Hc HW) as [Ew _]. unfold sbits in Ew. rewrite HA, Ew.
        apply orb_true_iff in Hf. destruct Hf as [-> | ->]; rewrite ?orb_true_r; reflexivity.
    - destruct is as [|i is]; [discriminate|]. rewrite trace_cons in E. cbn [app] in E. injection E as _ Et. exact (IH _ _ Et).
  Qed.
End Err.
