(** Proofs about the buffers of endpoints of a USB device. *)
From Verif Require Import Base BaseFacts FifoModel FifoProofs HsFifoProofs FifoCopyModel FifoCopySpec FifoCopyProofs EpbModel EpbSpec EpbCases.

Section P.
  Context {D : Type}.
  Notation W := (cword D unit).
  Variable chs : list (nat * option (nat * nat)).
  Hypothesis OK : eps_ok chs.
  Notation step := (@ep_step D chs).
  Notation cyc := (ep_in D * ep_out D)%type.

  Lemma find_in c : In c chs -> find (fun x => fst x =? fst c) chs = Some c.
  Proof.
    destruct OK as [ND _]. clear OK. induction chs as [|x l IH]; intros H; [destruct H|]. inversion ND; subst. cbn [find].
    destruct H as [->|H]; [now rewrite Nat.eqb_refl|].
    destruct (Nat.eqb_spec (fst x) (fst c)) as [E|_]; [exfalso; rewrite E in *; apply H2; now apply in_map|]. now apply IH.
  Qed.
  Lemma cfg_in e c : In (e, c) chs -> ep_cfg chs e = Some c.
  Proof. intros H. unfold ep_cfg. pose proof (find_in (e, c) H) as F. cbn [fst] in F. rewrite F. reflexivity. Qed.
  Lemma others_true (s : ep_st D) i e : ei_endp i = e -> others_ok chs s i e = true.
  Proof.
    intros H. unfold others_ok. apply forallb_forall. intros c _. unfold ch_ok, ep_skip. rewrite H, (Nat.eqb_sym e).
    destruct (fst c =? e); [reflexivity|]. cbn [orb negb]. now rewrite !orb_true_r.
  Qed.
  Lemma ch_rd_eq (s : ep_st D) i c : ch_rd chs s i c = ep_talk (fst c) i && ei_rd i && ch_pv s c.
  Proof.
    unfold ch_rd, ep_talk, ep_skip. destruct (Nat.eqb_spec (ei_endp i) (fst c)) as [E|_]; [|cbn; now rewrite !andb_false_r].
    rewrite (others_true _ _ _ E). cbn [negb]. now destruct (ei_ev i), (ei_rd i), (ch_pv s c).
  Qed.
  Lemma ch_prd_eq (s : ep_st D) i c : ch_prd chs s i c = ep_talk (fst c) i && ei_rd i && ch_v s i c && cw_last (ch_word s i c).
  Proof.
    unfold ch_prd, ep_talk, ep_skip. destruct (Nat.eqb_spec (ei_endp i) (fst c)) as [E|_]; [|cbn; now rewrite !andb_false_r].
    rewrite (others_true _ _ _ E). cbn [negb]. now destruct (ei_ev i), (ei_rd i), (ch_v s i c), (cw_last (ch_word s i c)).
  Qed.
  Lemma all_ok (s : ep_st D) i c : In c chs -> ei_endp i = fst c -> forallb (ch_ok s i) chs = ch_v s i c && ch_pv s c.
  Proof.
    intros Hc E. destruct (ch_v s i c && ch_pv s c) eqn:H.
    - apply forallb_forall. intros x Hx. unfold ch_ok, ep_skip. destruct (Nat.eqb_spec (ei_endp i) (fst x)) as [Ex|_].
      + assert (x = c). { rewrite E in Ex. pose proof (find_in x Hx) as F1. pose proof (find_in c Hc) as F2. rewrite <- Ex in F1. congruence. }
        subst x. apply andb_prop in H. destruct H as [-> ->]. reflexivity.
      + cbn [negb]. now rewrite !orb_true_r.
    - apply Bool.not_true_is_false. intros F. rewrite forallb_forall in F. specialize (F c Hc). unfold ch_ok, ep_skip in F.
      rewrite E, Nat.eqb_refl in F. cbn [negb] in F. rewrite !orb_false_r in F. congruence.
  Qed.
  Lemma out_v (s : ep_st D) i c : In c chs -> ep_talk (fst c) i = true -> eo_v (snd (step s i)) = ch_v s i c && ch_pv s c.
  Proof.
    unfold ep_talk. intros Hc H. apply andb_prop in H. destruct H as [E1 E2]. apply Nat.eqb_eq in E2.
    unfold ep_step. cbn [snd eo_v]. rewrite E1, (all_ok s i c Hc E2). reflexivity.
  Qed.
  Lemma out_word (s : ep_st D) i c : In c chs -> ep_talk (fst c) i = true -> eo_word (snd (step s i)) = Some (ch_word s i c).
  Proof.
    unfold ep_talk. intros Hc H. apply andb_prop in H. destruct H as [_ E2]. apply Nat.eqb_eq in E2.
    unfold ep_step. cbn [snd eo_word]. rewrite E2, (find_in c Hc). reflexivity.
  Qed.

  (** ** a channel without a buffer *)
  Lemma direct_run e is (s : ep_st D) : In (e, None) chs -> ep_direct e (trace step s is).
  Proof.
    intros Hc. revert s. induction is as [|i is IH]; intros s; [split; [reflexivity|intros c []]|].
    rewrite trace_cons. destruct (IH (fst (step s i))) as [H1 H2].
    assert (Hv : ep_talk e i = true -> eo_v (snd (step s i)) = ei_vld i e).
    { intros T. rewrite (out_v s i _ Hc T). cbn [ch_v ch_pv snd fst]. now rewrite andb_true_r. }
    assert (Hw : ep_talk e i = true -> eo_word (snd (step s i)) = Some (ei_word i e)) by (intros T; exact (out_word s i _ Hc T)).
    split.
    - unfold ep_acc, ep_sent in *. cbn [flat_map fst snd]. rewrite map_app, H1. f_equal.
      assert (E : eo_rd (snd (step s i)) e = ep_talk e i && ei_rd i).
      { unfold ep_step. cbn [snd eo_rd]. rewrite (cfg_in e None Hc), ch_rd_eq. cbn [fst ch_pv snd]. now rewrite andb_true_r. }
      rewrite E. destruct (ep_talk e i) eqn:T; cbn [andb]; [|now rewrite andb_false_r].
      rewrite (Hv eq_refl), (Hw eq_refl). destruct (ei_vld i e && ei_rd i); reflexivity.
    - intros c [<-|Hin] T; [|exact (H2 c Hin T)]. cbn [fst snd] in *. auto.
  Qed.

  (** ** a channel with a buffer *)
  Section Buffered.
    Variables (e B M : nat).
    Hypothesis IN : In (e, Some (B, M)) chs.
    Lemma B2 : 2 < B. Proof. destruct OK as [_ H]. apply (H _ _ _ IN). Qed.
    Lemma PD2 : 2 <= pb_depth B M. Proof. unfold pb_depth. lia. Qed.

    Definition BInv (s : ep_st D) (acc : list W) (m p : nat) (q : list unit) : Prop :=
      ARep B (fst (s e)) acc m p None /\ HRep (pb_depth B M) (snd (s e)) q /\ length q + packets (firstn p acc) = packets acc /\ p <= length acc /\
      (m = p \/ packets (firstn p acc) < packets acc).

    Lemma binv_init m0 d0 : BInv (ep_init chs m0 d0) [] 0 0 [].
    Proof.
      pose proof B2. pose proof PD2. split; [|split; [|split; [reflexivity|split; [cbn; lia|auto]]]]; unfold ep_init; cbn [fst snd].
      - apply arep_init. lia.
      - rewrite (cfg_in _ _ IN). apply hrep_init; [exact PD2|]. left. cbn. lia.
    Qed.
    Lemma packets_app (a b : list W) : packets (a ++ b) = packets a + packets b.
    Proof. unfold packets. now rewrite filter_app, app_length. Qed.

    (** what the channel does in a cycle *)
    Definition takes (s : ep_st D) (i : ep_in D) : bool := ei_vld i e && in_rd s i e B.
    Definition offers (s : ep_st D) : bool := ac_ovld (fst (s e)) && ovld (snd (s e)).
    Definition sends (s : ep_st D) (i : ep_in D) : bool := ep_talk e i && (offers s && ei_rd i).

    Lemma binv_step s acc m p q i : BInv s acc m p q ->
      let acc' := acc ++ opt_list (takes s i) (ei_word i e) in
      (offers s = true -> exists w, nth_error acc p = Some w /\ ac_shown (fst (s e)) = w /\ packets (firstn p acc) < packets acc) /\
      exists m' q', BInv (fst (step s i)) acc' m' (if sends s i then p + 1 else p) q'.
    Proof.
      intros (RA & RH & Eq & Hp & Hmp) acc'. pose proof B2 as HB. pose proof PD2 as HP.
      set (ia := mk_aci (in_v s i e) (ei_word i e) (ch_rd chs s i (e, Some (B, M))) false tt).
      set (ih := mk_hin (in_pv s i e B) tt (ch_prd chs s i (e, Some (B, M)))).
      assert (Es : fst (step s i) e = (fst (ac_step B (fst (s e)) ia), fst (hsf_step (pb_depth B M) (snd (s e)) ih))).
      { unfold ep_step, ep_next. cbn [fst]. rewrite (cfg_in _ _ IN). reflexivity. }
      assert (Esend : ac_ovld (fst (s e)) && ai_rd ia = sends s i).
      { unfold ia, sends, offers. cbn [ai_rd]. rewrite ch_rd_eq. cbn [fst ch_pv snd].
        now destruct (ep_talk e i), (ei_rd i), (ac_ovld (fst (s e))), (ovld (snd (s e))). }
      assert (Eshow : forall w, ac_ovld (fst (s e)) = true -> nth_error acc p = Some w -> ac_shown (fst (s e)) = w).
      { intros w Ho Hw. pose proof (ar_o _ _ _ _ _ _ RA Ho) as H. rewrite Hw in H. injection H as ->. unfold ac_shown.
        rewrite (ar_v _ _ _ _ _ _ RA). destruct (fc_dout (ac_f (fst (s e)))). reflexivity. }
      assert (Etake : ai_vld ia && ao_rd (snd (ac_step B (fst (s e)) ia)) = takes s i).
      { unfold ac_step, ia, takes, in_rd, in_v, in_wr. cbn [snd ao_rd ai_vld].
        now destruct (ei_vld i e), (in_pr s e || in_skip i e), (fc_wwait (B - 1) (ac_f (fst (s e)))). }
      pose proof (axis_step B HB _ _ _ _ _ ia RA) as St. cbv zeta in St. rewrite Etake in St. change (ai_word ia) with (ei_word i e) in St. fold acc' in St.
      change (ao_vld (snd (ac_step B (fst (s e)) ia))) with (ac_ovld (fst (s e))) in St. rewrite Esend in St. change (ai_copy ia) with false in St.
      pose proof (hrep_step (pb_depth B M) HP _ _ ih RH) as Sh. cbv zeta in Sh. destruct Sh as (RH' & Hne & _).
      assert (Ev : h_vld (snd (hsf_step (pb_depth B M) (snd (s e)) ih)) = ovld (snd (s e))).
      { rewrite step_out. reflexivity. }
      assert (Er : h_rd (snd (hsf_step (pb_depth B M) (snd (s e)) ih)) = in_pr s e).
      { rewrite step_out. reflexivity. }
      rewrite Ev, Er in *. change (i_rd ih) with (ch_prd chs s i (e, Some (B, M))) in *. change (i_vld ih) with (in_pv s i e B) in *.
      rewrite ch_prd_eq in RH'. cbn [fst ch_v ch_word snd] in RH'.
      assert (Hpk : in_pv s i e B && in_pr s e = takes s i && cw_last (ei_word i e)).
      { unfold in_pv, takes, in_rd, in_skip. now destruct (ei_vld i e), (in_wr s e B), (cw_last (ei_word i e)), (in_pr s e). }
      rewrite Hpk in RH'.
      assert (Hlq : forall b : bool, length (if b then [tt] else []) = Nat.b2n b) by (intros []; reflexivity).
      assert (Hpa : packets acc' = packets acc + Nat.b2n (takes s i && cw_last (ei_word i e))).
      { unfold acc'. rewrite packets_app. f_equal. unfold packets. destruct (takes s i); [|reflexivity]. cbn. now destruct (cw_last (ei_word i e)). }
      assert (Hla : length acc <= length acc') by (unfold acc'; rewrite app_length; apply Nat.le_add_r).
      split.
      - intros Hof. unfold offers in Hof. apply andb_prop in Hof. destruct Hof as [Ha Hh].
        destruct (Hne Hh) as (q' & ->). cbn [length] in Eq. pose proof (ar_o _ _ _ _ _ _ RA Ha) as Hn. exists (fc_dout (ac_f (fst (s e)))).
        split; [exact Hn|]. split; [exact (Eshow _ Ha Hn)|]. lia.
      - destruct (sends s i) eqn:Sd.
        + destruct St as (w & Hw & _ & St).
          assert (Hs : ac_ovld (fst (s e)) = true /\ ovld (snd (s e)) = true /\ ep_talk e i = true /\ ei_rd i = true).
          { unfold sends, offers in Sd. repeat (apply andb_prop in Sd; destruct Sd as [? Sd]). repeat (match goal with H : _ && _ = true |- _ => apply andb_prop in H; destruct H end). auto. }
          destruct Hs as (Ha & Hh & Ht & Hr). rewrite (Eshow _ Ha Hw), Ha, Hh, Ht, Hr in RH'. cbn [andb] in RH'.
          destruct (Hne Hh) as (q0 & Eq0).
          assert (Hplt : p < length acc) by (apply nth_error_Some; congruence).
          assert (Hf : packets (firstn (p + 1) acc') = packets (firstn p acc) + Nat.b2n (cw_last w)).
          { unfold acc'. rewrite firstn_app. replace (p + 1 - length acc) with 0 by lia. cbn [firstn]. rewrite app_nil_r.
            assert (E : firstn (p + 1) acc = firstn p acc ++ [w]).
            { clear - Hw. revert p Hw. induction acc as [|a l IH]; intros [|p] Hw; try discriminate; cbn [nth_error] in Hw; [injection Hw as ->; reflexivity|].
              cbn [Nat.add firstn app]. f_equal. exact (IH _ Hw). }
            rewrite E, packets_app. f_equal. unfold packets. cbn. now destruct (cw_last w). }
          destruct (cw_last w) eqn:El.
          * exists (p + 1), (tl q ++ (if takes s i && cw_last (ei_word i e) then [tt] else [])). split; [|split; [|split; [|split; [lia|]]]]; rewrite ?Es; cbn [fst snd].
            { exact St. } { exact RH'. }
            { rewrite Hf, Hpa, app_length, Hlq. rewrite Eq0 in *. cbn [tl length Nat.b2n] in *. lia. }
            left. reflexivity.
          * exists m, (q ++ (if takes s i && cw_last (ei_word i e) then [tt] else [])). split; [|split; [|split; [|split; [lia|]]]]; rewrite ?Es; cbn [fst snd].
            { exact St. } { exact RH'. }
            { rewrite Hf, Hpa, app_length, Hlq. cbn [Nat.b2n]. lia. }
            right. rewrite Hf, Hpa. rewrite Eq0 in *. cbn [length Nat.b2n] in *. lia.
        + assert (E0 : ovld (snd (s e)) && (ep_talk e i && ei_rd i && ac_ovld (fst (s e)) && cw_last (ac_shown (fst (s e)))) = false).
          { unfold sends, offers in Sd. now destruct (ovld (snd (s e))), (ep_talk e i), (ei_rd i), (ac_ovld (fst (s e))). }
          rewrite E0 in RH'.
          exists m, (q ++ (if takes s i && cw_last (ei_word i e) then [tt] else [])). split; [|split; [|split; [|split; [lia|]]]]; rewrite ?Es; cbn [fst snd].
          { exact St. } { exact RH'. }
          { rewrite Hpa, app_length, Hlq. unfold acc'. rewrite firstn_app. replace (p - length acc) with 0 by lia. cbn [firstn]. rewrite app_nil_r. lia. }
          destruct Hmp as [Hmp|Hmp]; [left; exact Hmp|]. right. rewrite Hpa. unfold acc'. rewrite firstn_app. replace (p - length acc) with 0 by lia.
          cbn [firstn]. rewrite app_nil_r. lia.
    Qed.

    Lemma acc_snoc (s : ep_st D) is i : ep_acc e (trace step s (is ++ [i])) =
      ep_acc e (trace step s is) ++ opt_list (takes (final step s is) i) (ei_word i e).
    Proof.
      rewrite trace_snoc. unfold ep_acc. rewrite flat_map_app. f_equal. cbn [flat_map fst snd]. rewrite app_nil_r.
      unfold ep_step at 1. cbn [snd eo_rd]. rewrite (cfg_in _ _ IN). reflexivity.
    Qed.
    Lemma sent_snoc (s : ep_st D) is i : ep_sent e (trace step s (is ++ [i])) =
      ep_sent e (trace step s is) ++ opt_list (sends (final step s is) i) (Some (ac_shown (fst (final step s is e)))).
    Proof.
      rewrite trace_snoc. unfold ep_sent. rewrite flat_map_app. f_equal. cbn [flat_map fst snd]. rewrite app_nil_r.
      unfold sends. destruct (ep_talk e i) eqn:T; [|reflexivity]. rewrite (out_v _ _ _ IN T), (out_word _ _ _ IN T). cbn [ch_v ch_pv ch_word fst snd andb].
      unfold offers. destruct (_ && ei_rd i); reflexivity.
    Qed.

    Lemma binv_run m0 d0 is :
      let s := final step (ep_init chs m0 d0) is in let t := trace step (ep_init chs m0 d0) is in
      (exists m q, BInv s (ep_acc e t) m (length (ep_sent e t)) q) /\ ep_sent e t = map Some (firstn (length (ep_sent e t)) (ep_acc e t)).
    Proof.
      cbv zeta. induction is as [|i is IH] using rev_ind.
      { split; [|reflexivity]. exists 0, []. apply binv_init. }
      destruct IH as [(m & q & R) E]. destruct (binv_step _ _ _ _ _ i R) as (Hof & m' & q' & R').
      rewrite final_snoc, acc_snoc, sent_snoc in *.
      set (s := final step (ep_init chs m0 d0) is) in *. set (acc := ep_acc e (trace step (ep_init chs m0 d0) is)) in *.
      set (snt := ep_sent e (trace step (ep_init chs m0 d0) is)) in *.
      assert (Hp : length snt <= length acc) by apply R.
      rewrite app_length. unfold opt_list in *. destruct (sends s i) eqn:Sd; cbn [length].
      - split; [exists m', q'; exact R'|].
        assert (Ho : offers s = true). { unfold sends in Sd. now destruct (ep_talk e i), (offers s). }
        destruct (Hof Ho) as (w & Hw & -> & _). assert (length snt < length acc) by (apply nth_error_Some; congruence).
        rewrite firstn_app. replace (length snt + 1 - length acc) with 0 by lia. cbn [firstn]. rewrite app_nil_r.
        assert (E1 : firstn (length snt + 1) acc = firstn (length snt) acc ++ [w]).
        { clear - Hw. revert Hw. generalize (length snt) as p. induction acc as [|a l IH]; intros [|p] Hw; try discriminate; cbn [nth_error] in Hw; [injection Hw as ->; reflexivity|].
          cbn [Nat.add firstn app]. f_equal. exact (IH _ Hw). }
        rewrite E1, map_app. cbn [map]. now rewrite <- E.
      - rewrite Nat.add_0_r, app_nil_r. split; [exists m', q'; exact R'|].
        rewrite firstn_app. replace (length snt - length acc) with 0 by lia. cbn [firstn]. now rewrite app_nil_r.
    Qed.

    Lemma binv_law m0 d0 is : ep_law e (trace step (ep_init chs m0 d0) is).
    Proof.
      destruct (binv_run m0 d0 is) as [_ E]. split.
      - exists (map Some (skipn (length (ep_sent e (trace step (ep_init chs m0 d0) is))) (ep_acc e (trace step (ep_init chs m0 d0) is)))).
        rewrite E at 1. now rewrite <- map_app, firstn_skipn.
      - intros t1 c t2 Et T Hv.
        assert (Hs : exists is1 i is2, is = is1 ++ i :: is2 /\ t1 = trace step (ep_init chs m0 d0) is1 /\
                     c = (i, snd (step (final step (ep_init chs m0 d0) is1) i))).
        { clear - Et. revert t1 Et. generalize (ep_init chs m0 d0 : ep_st D). induction is as [|i is IH]; intros s t1 Et.
          - destruct t1; discriminate.
          - rewrite trace_cons in Et. destruct t1 as [|x t1].
            + injection Et as <- Et. exists [], i, is. auto.
            + injection Et as <- Et. destruct (IH _ _ Et) as (is1 & j & is2 & -> & -> & ->). exists (i :: is1), j, is2.
              rewrite trace_cons, final_cons. auto. }
        destruct Hs as (is1 & i & is2 & _ & -> & ->). cbn [fst snd] in *.
        destruct (binv_run m0 d0 is1) as [(m & q & R) _]. destruct (binv_step _ _ _ _ _ i R) as (Hof & _).
        rewrite (out_v _ _ _ IN T) in Hv. rewrite (out_word _ _ _ IN T). cbn [ch_v ch_pv ch_word fst snd] in *.
        destruct (Hof Hv) as (w & Hw & -> & Hlt). rewrite Hw. split; [unfold waiting; lia|reflexivity].
    Qed.

    Lemma binv_progress m0 d0 is i j :
      let t := trace step (ep_init chs m0 d0) is in
      0 < waiting e t -> ep_talk e i = true -> ei_rd i = true -> ep_talk e j = true -> ei_rd j = true ->
      length (ep_sent e t) < length (ep_sent e (trace step (ep_init chs m0 d0) (is ++ [i; j]))).
    Proof.
      cbv zeta. intros Hw Ti Ri Tj Rj. destruct (binv_run m0 d0 is) as [(m & q & R) _].
      change [i; j] with ([i] ++ [j]). rewrite app_assoc, sent_snoc, app_length, sent_snoc, app_length, final_snoc.
      set (s := final step (ep_init chs m0 d0) is) in *. set (acc := ep_acc e (trace step (ep_init chs m0 d0) is)) in *.
      set (p := length (ep_sent e (trace step (ep_init chs m0 d0) is))) in *.
      destruct (offers s) eqn:Ho.
      { unfold sends at 1. rewrite Ho, Ti, Ri. cbn. lia. }
      assert (Ho' : offers (fst (step s i)) = true).
      { destruct R as (RA & RH & Eq & Hp & _). pose proof B2 as HB. pose proof PD2 as HP.
        assert (Hq : q <> []) by (unfold waiting in Hw; fold acc p in Hw; destruct q; [cbn in Eq; lia|discriminate]).
        assert (Hpl : p < length acc).
        { unfold waiting in Hw. fold acc p in Hw. destruct (Nat.eq_dec p (length acc)) as [E|]; [|lia]. rewrite E, firstn_all in Hw. lia. }
        unfold offers in *. unfold ep_step, ep_next. cbn [fst]. rewrite (cfg_in _ _ IN). cbn [fst snd].
        set (ia := mk_aci (in_v s i e) (ei_word i e) (ch_rd chs s i (e, Some (B, M))) false tt).
        set (ih := mk_hin (in_pv s i e B) tt (ch_prd chs s i (e, Some (B, M)))).
        assert (Ea : ai_rd ia = ovld (snd (s e))). { unfold ia. cbn [ai_rd]. rewrite ch_rd_eq. cbn [fst ch_pv snd]. now rewrite Ti, Ri. }
        assert (Eh : i_rd ih = ac_ovld (fst (s e)) && cw_last (ac_shown (fst (s e)))).
        { unfold ih. cbn [i_rd]. rewrite ch_prd_eq. cbn [fst ch_v ch_word snd]. now rewrite Ti, Ri. }
        pose proof (hrep_step (pb_depth B M) HP _ _ ih RH) as Sh. cbv zeta in Sh. destruct Sh as (_ & _ & Hkeep & _ & _ & _ & Hnew & _).
        assert (Ev : h_vld (snd (hsf_step (pb_depth B M) (snd (s e)) ih)) = ovld (snd (s e))) by (rewrite step_out; reflexivity).
        rewrite Ev in *. apply andb_true_intro. split.
        - unfold ac_step. cbn [fst ac_ovld]. rewrite Ea. change (ai_copy ia) with false. rewrite andb_false_r.
          destruct (ac_ovld (fst (s e))) eqn:Eo; cbn [andb negb orb] in *.
          + rewrite Ho. reflexivity.
          + rewrite orb_true_r. unfold fc_rwait. rewrite (crep_rwait (B - 1) ltac:(lia) _ _ _ _ (ar_f _ _ _ _ _ _ RA)), Eo. cbn [Nat.b2n]. apply negb_true_iff, Nat.eqb_neq. lia.
        - destruct (ovld (snd (s e))) eqn:Ep; [|now apply Hnew]. rewrite andb_true_r in Ho. rewrite Ho in Eh. now apply Hkeep. }
      unfold sends at 2. rewrite Ho', Tj, Rj. cbn. lia.
    Qed.

    (** the endpoint takes words of a packet which fits *)
    Lemma packets_none (l : list W) : packets l = 0 -> forall k w, nth_error l k = Some w -> cw_last w = false.
    Proof.
      unfold packets. induction l as [|x l IH]; intros H [|k] w Hk; try discriminate; cbn [nth_error filter] in *.
      - injection Hk as ->. destruct (cw_last w); [discriminate|reflexivity].
      - apply (IH ltac:(destruct (cw_last x); [discriminate|exact H]) k w Hk).
    Qed.
    Lemma takes_ready m0 d0 is i :
      let t := trace step (ep_init chs m0 d0) is in
      waiting e t = 0 -> open_frame (ep_acc e t) < B - 2 -> eo_rd (snd (step (final step (ep_init chs m0 d0) is) i)) e = true.
    Proof.
      cbv zeta. intros Hw Hof. destruct (binv_run m0 d0 is) as [(m & q & RA & RH & Eq & Hp & Hmp) _]. unfold waiting in Hw.
      set (s := final step (ep_init chs m0 d0) is) in *. set (acc := ep_acc e (trace step (ep_init chs m0 d0) is)) in *.
      set (p := length (ep_sent e (trace step (ep_init chs m0 d0) is))) in *. pose proof B2 as HB. pose proof PD2 as HP.
      assert (Hq : length q = 0) by lia. assert (Em : m = p) by (destruct Hmp; [assumption|lia]).
      assert (Hno : forall k w, p <= k < length acc -> nth_error acc k = Some w -> cw_last w = false).
      { intros k w Hk Hn. assert (Hs : packets (skipn p acc) = 0).
        { pose proof (packets_app (firstn p acc) (skipn p acc)) as H. rewrite firstn_skipn in H. lia. }
        apply (packets_none _ Hs (k - p)). assert (Hn' : nth_error (firstn p acc ++ skipn p acc) k = Some w) by (now rewrite firstn_skipn).
        rewrite nth_error_app2 in Hn' by (rewrite firstn_length; lia). rewrite firstn_length in Hn'. now replace (Nat.min p (length acc)) with p in Hn' by lia. }
      pose proof (open_suffix acc p Hno) as Hos.
      unfold ep_step. cbn [snd eo_rd]. rewrite (cfg_in _ _ IN). unfold in_rd, in_wr, in_pr.
      rewrite (crep_wwait (B - 1) ltac:(lia) _ _ _ _ (ar_f _ _ _ _ _ _ RA)). apply andb_true_intro. split.
      - apply negb_true_iff, Nat.eqb_neq. lia.
      - pose proof (hrep_step (pb_depth B M) HP _ _ (mk_hin false tt false) RH) as Sh. cbv zeta in Sh. destruct Sh as (_ & _ & _ & Hr & _).
        rewrite step_out in Hr. cbn [h_rd] in Hr. rewrite Hr by lia. reflexivity.
    Qed.

    (** a packet without an end which fills the buffer *)
    Lemma stuck_forever m0 d0 is js :
      let t := trace step (ep_init chs m0 d0) is in let t' := trace step (ep_init chs m0 d0) (is ++ js) in
      packets (ep_acc e t) = 0 -> length (ep_acc e t) = B - 2 -> ep_acc e t' = ep_acc e t /\ ep_sent e t' = [].
    Proof.
      cbv zeta. intros Hp Hl. induction js as [|j js IH] using rev_ind.
      - rewrite app_nil_r. split; [reflexivity|]. destruct (binv_run m0 d0 is) as [_ E].
        enough (H0 : length (ep_sent e (trace step (ep_init chs m0 d0) is)) = 0) by (rewrite E, H0; reflexivity).
        clear E. assert (G : forall is, packets (ep_acc e (trace step (ep_init chs m0 d0) is)) = 0 -> length (ep_sent e (trace step (ep_init chs m0 d0) is)) = 0).
        { clear is Hp Hl. intros is. induction is as [|i is IH] using rev_ind; [reflexivity|]. rewrite acc_snoc, sent_snoc, packets_app, app_length. intros H.
          rewrite IH by lia. destruct (binv_run m0 d0 is) as [(m & q & R) _]. destruct (binv_step _ _ _ _ _ i R) as (Hof & _).
          destruct (offers (final step (ep_init chs m0 d0) is)) eqn:Ho.
          - destruct (Hof eq_refl) as (w & _ & _ & Hlt). lia.
          - unfold sends. rewrite Ho. cbn. now rewrite andb_false_r. }
        apply G, Hp.
      - destruct IH as [E1 E2]. rewrite app_assoc, acc_snoc, sent_snoc, E1, E2.
        destruct (binv_run m0 d0 (is ++ js)) as [(m & q & R) _]. rewrite E1, E2 in R.
        destruct (binv_step _ _ _ _ _ j R) as (Hof & _).
        set (s := final step (ep_init chs m0 d0) (is ++ js)) in *.
        assert (Ho : offers s = false). { destruct (offers s); [|reflexivity]. destruct (Hof eq_refl) as (w & _ & _ & Hlt). lia. }
        destruct R as (RA & _). pose proof B2 as HB. pose proof (ar_m _ _ _ _ _ _ RA) as Hm. cbn [length] in Hm.
        assert (Ht : takes s j = false).
        { unfold takes, in_rd, in_wr. rewrite (crep_wwait (B - 1) ltac:(lia) _ _ _ _ (ar_f _ _ _ _ _ _ RA)), Hl.
          replace (B - 2 - m =? B - 1 - 1) with true by (symmetry; apply Nat.eqb_eq; lia). cbn. now rewrite andb_false_r. }
        rewrite Ht. unfold sends. rewrite Ho. cbn. now rewrite andb_false_r, app_nil_r.
    Qed.
  End Buffered.

  Lemma stalls (s : ep_st D) i : eo_stall (snd (step s i)) = true <-> ~ In (ei_endp i) (map fst chs).
  Proof.
    unfold ep_step. cbn [snd eo_stall]. rewrite negb_true_iff. split.
    - intros H Hin. apply in_map_iff in Hin. destruct Hin as (c & E & Hc). enough (true = false) by discriminate. rewrite <- H. symmetry.
      apply existsb_exists. exists c. split; [exact Hc|]. now apply Nat.eqb_eq.
    - intros H. apply Bool.not_true_is_false. intros E. apply existsb_exists in E. destruct E as (c & Hc & Ec). apply H. apply Nat.eqb_eq in Ec. rewrite <- Ec. now apply in_map.
  Qed.
End P.

Lemma eb_ok : eps_ok eb_chs.
Proof.
  split; [repeat constructor; cbn; intuition discriminate|]. intros e B M H. cbn in H. repeat (destruct H as [H|H]; [try discriminate; injection H; intros; subst; lia|]). destruct H.
Qed.
Lemma again_bad : exists chs (m0 : nat -> nat -> cword nat unit) d0 is, eps_ok chs /\ In (1, Some (8, 4)) chs /\
  ~ ep_again 1 (trace (ep_step chs) (ep_init chs m0 d0) is).
Proof.
  exists eb_chs, (fun _ _ => eb_w 0 false), (fun _ => eb_w 0 false), eb_two. split; [exact eb_ok|]. split; [cbn; auto|]. intros H.
  set (t := trace (ep_step eb_chs) (ep_init eb_chs (fun _ _ => eb_w 0 false) (fun _ => eb_w 0 false)) eb_two) in *.
  assert (E : exists c t2, t = firstn 3 t ++ c :: t2 /\ fst c = eb_fail 1 /\ ep_sent 1 (firstn 3 t ++ [c]) = [Some (eb_w 1 true)]).
  { exists (nth 3 t (eb_fail 1, mk_epo (fun _ => false) false None false)), (skipn 4 t). repeat split; lazy; reflexivity. }
  destruct E as (c & t2 & Et & Ef & Es).
  assert (E1 : ep_sent 1 (firstn 3 t) = [Some (eb_w 1 true)]) by (lazy; reflexivity).
  specialize (H (firstn 3 t) c t2 (Some (eb_w 2 true)) Et). rewrite Ef, Es, E1 in H.
  specialize (H eq_refl eq_refl eq_refl ltac:(discriminate)). assert (E2 : ep_sent 1 t = [Some (eb_w 1 true); Some (eb_w 2 true)]) by (lazy; reflexivity).
  rewrite E2 in H. specialize (H eq_refl). discriminate.
Qed.
Lemma long_bad : exists chs e B M (m0 : nat -> nat -> cword nat unit) d0 is, eps_ok chs /\ In (e, Some (B, M)) chs /\ M <= B /\
  length (ep_acc e (trace (ep_step chs) (ep_init chs m0 d0) is)) < M /\
  forall js, let t := trace (ep_step chs) (ep_init chs m0 d0) (is ++ js) in
    ep_acc e t = ep_acc e (trace (ep_step chs) (ep_init chs m0 d0) is) /\ ep_sent e t = [].
Proof.
  exists eb_chs, 3, 4, 4, (fun _ _ => eb_w 0 false), (fun _ => eb_w 0 false), eb_long. split; [exact eb_ok|]. split; [cbn; auto|]. split; [lia|].
  split; [lazy; lia|]. intros js. apply (stuck_forever eb_chs eb_ok 3 4 4); [cbn; auto|lazy; reflexivity|lazy; reflexivity].
Qed.
