From Verif Require Import Base BaseFacts HsRegModel HsRegProofs FifoModel FifoProofs HsFifoProofs MeasModel MeasSpec.

Section Proofs.
  Context {A : Type}.
  Variables (MAX SD B lb : nat) (strb : bool).
  Hypotheses (HM : 1 <= MAX) (HS : 2 <= SD) (HB : B = 2 ^ lb) (Hlb : 1 <= lb).
  Notation step := (meas_step (A := A) MAX SD B strb).
  Notation cut := (cut (A := A) MAX). Notation sizes := (sizes (A := A) MAX B strb). Notation closes := (closes (A := A) MAX).
  Fixpoint cnt_after (n : nat) (ws : list (mword A)) : nat := match ws with [] => n | w :: ws' => cnt_after (if closes n w then 0 else n + 1) ws' end.
  Lemma cut_app ws : forall n vs, cut n (ws ++ vs) = cut n ws ++ cut (cnt_after n ws) vs.
  Proof. induction ws as [|w ws IH]; intros n vs; [reflexivity|]. cbn [app MeasSpec.cut cnt_after]. rewrite IH. reflexivity. Qed.
  Lemma sizes_app ws : forall n vs, sizes n (ws ++ vs) = sizes n ws ++ sizes (cnt_after n ws) vs.
  Proof. induction ws as [|w ws IH]; intros n vs; [reflexivity|]. cbn [app MeasSpec.sizes cnt_after]. rewrite IH, app_assoc. reflexivity. Qed.
  Lemma cnt_app ws : forall n vs, cnt_after n (ws ++ vs) = cnt_after (cnt_after n ws) vs.
  Proof. induction ws as [|w ws IH]; intros n vs; [reflexivity|]. cbn [app cnt_after]. apply IH. Qed.
  Lemma cnt_le ws : forall n, n <= MAX -> cnt_after n ws <= MAX.
  Proof.
    induction ws as [|w ws IH]; intros n Hn; [exact Hn|]. cbn [cnt_after]. apply IH. unfold MeasSpec.closes. destruct (mw_l w); cbn [orb]; [lia|]. destruct (Nat.eqb_spec n MAX); lia.
  Qed.
  Lemma lb_log : log2ceil B = lb.
  Proof. unfold log2ceil. rewrite HB. destruct (Nat.leb_spec (2 ^ lb) 1) as [H|H]; [|apply Nat.log2_up_pow2; lia]. pose proof (Nat.pow_le_mono_r 2 1 lb ltac:(lia) Hlb) as Q. cbn in Q. lia. Qed.
  Lemma inc_ok n : n <= MAX -> winc (me_cw MAX) n = n + 1.
  Proof.
    intros H. apply winc_small. unfold me_cw. rewrite Nat.pow_add_r. cbn [Nat.pow]. pose proof (log2ceil_ge MAX).
    assert (2 <= 2 ^ log2ceil MAX). { apply (Nat.pow_le_mono_r 2 1); [lia|]. unfold log2ceil. destruct (Nat.leb_spec MAX 1); [lia|]. apply Nat.log2_up_pos. lia. }
    lia.
  Qed.
  Lemma top_rep k m : forall j, top j (repeat true k ++ repeat false m) = match k with 0 => None | S k' => Some (j + k') end.
  Proof.
    induction k as [|k IH]; intros j.
    - cbn [repeat app]. revert j. induction m as [|m IHm]; intros j; [reflexivity|]. cbn [repeat top]. rewrite IHm. reflexivity.
    - cbn [repeat app top]. rewrite IH. destruct k; [f_equal; lia|f_equal; lia].
  Qed.
  Lemma full_rep k m : full (repeat true k ++ repeat false m) = (m =? 0).
  Proof. unfold full. rewrite forallb_app. replace (forallb _ (repeat true k)) with true by (clear; induction k; [reflexivity|exact IHk]). destruct m; reflexivity. Qed.
  Lemma count_rep k m : length (filter (fun b : bool => b) (repeat true k ++ repeat false m)) = k.
  Proof. rewrite filter_app, app_length. replace (filter _ (repeat false m)) with (@nil bool) by (clear; induction m; [reflexivity|exact IHm]). induction k; cbn in *; lia. Qed.
  Lemma size_ok n (w : mword A) : n <= MAX -> (strb = true -> strb_ok B w) ->
    (if strb && (true && negb (full (mw_s w))) then n else winc (me_cw MAX) n) * 2 ^ log2ceil B + (if strb then me_rem B (mw_s w) else 0) = n * B + valid_bytes B strb w.
  Proof.
    intros Hn Hw. rewrite (inc_ok n Hn), lb_log, <- HB. unfold valid_bytes. destruct strb; cbn [andb]; [|lia]. destruct (Hw eq_refl) as [k [Hk E]]. rewrite E, full_rep, count_rep. unfold me_rem. rewrite top_rep.
    assert (2 <= B) by (rewrite HB; apply (Nat.pow_le_mono_r 2 1); lia).
    destruct k; [destruct (Nat.eqb_spec (B - 0) 0); [lia|cbn [negb]; lia]|]. rewrite Nat.add_0_l. destruct (Nat.eqb_spec k (B - 1)), (Nat.eqb_spec (B - S k) 0); cbn [negb]; lia.
  Qed.
  Lemma full_valid (w : mword A) : strb = true -> strb_ok B w -> full (mw_s w) = (valid_bytes B strb w =? B).
  Proof. intros E [k [Hk Ew]]. unfold valid_bytes. rewrite E, Ew, full_rep, count_rep. destruct (Nat.eqb_spec (B - k) 0), (Nat.eqb_spec k B); lia. Qed.

  (** [ps]: the words which left the input register *)
  Record inv (s : me_st A) (acc : list (mword A)) (dd : list (mword A)) (ds : list nat) : Prop := {
    i_k : sk (ms_r s) = KLat;
    i_all : exists ps, acc = ps ++ (if occ (ms_r s) then [sdat (ms_r s)] else []) /\ ms_c s = cnt_after 0 ps /\
      (exists qd, HRep (me_dd MAX) (ms_d s) qd /\ cut 0 ps = dd ++ qd) /\ (exists qs, HRep SD (ms_s s) qs /\ sizes 0 ps = ds ++ qs) /\
      (strb = true -> Exists (misaligned B strb) ps -> ms_e s = true) /\ (strb = true -> ms_e s = true -> Exists (misaligned B strb) acc);
    i_ok : Forall (fun w => strb = true -> strb_ok B w) acc }.
  Lemma dd2 : 2 <= me_dd MAX. Proof. unfold me_dd. lia. Qed.
  Lemma inv_step s acc dd ds i : inv s acc dd ds -> (strb = true -> strb_ok B (mi_w i)) ->
    let x := (i, snd (step s i)) in inv (fst (step s i)) (acc ++ ms_taken x) (dd ++ ms_sent x) (ds ++ ms_size x).
  Proof.
    intros [Hk [ps [E1 [E2 [[qd [Hd E3]] [[qs [Hs E4]] [He1 He2]]]]]] Hok] Hi. set (w := sdat (ms_r s)). set (v := occ (ms_r s)).
    set (srd := negb (f_wwait (hf (ms_s s)))). set (drd := negb (f_wwait (hf (ms_d s)))).
    set (last := mw_l w || (ms_c s =? MAX)).
    pose proof (hrep_step SD HS (ms_s s) qs (mk_hin (v && drd && last) ((if strb && (last && negb (full (mw_s w))) then ms_c s else winc (me_cw MAX) (ms_c s)) * 2 ^ log2ceil B + (if strb then me_rem B (mw_s w) else 0)) (mi_srd i)) Hs) as Fs.
    pose proof (hrep_step (me_dd MAX) dd2 (ms_d s) qd (mk_hin (v && srd) (mk_mw (mw_d w) (mw_s w) last) (mi_rd i)) Hd) as Fd.
    cbv zeta in Fs, Fd. rewrite step_out in Fs. rewrite step_out in Fd. cbn [h_rd h_vld h_data i_vld i_data i_rd] in Fs, Fd. fold srd in Fs. fold drd in Fd.
    destruct Fs as [Fs1 [Fs2 _]]. destruct Fd as [Fd1 [Fd2 _]].
    unfold meas_step. fold w. fold v. fold srd. fold drd. fold last.
    rewrite (surjective_pairing (hsf_step SD (ms_s s) _)), (surjective_pairing (hsf_step (me_dd MAX) (ms_d s) _)). rewrite (step_out SD), (step_out (me_dd MAX)). cbn [h_vld h_data fst snd].
    unfold ms_taken, ms_sent, ms_size. cbn [fst snd mo_rd mo_s mo_w].
    assert (Hle : ms_c s <= MAX) by (rewrite E2; apply cnt_le; lia).
    assert (Hw : v = true -> strb = true -> strb_ok B w).
    { intros Ev. rewrite E1 in Hok. fold v w in Hok. rewrite Ev in Hok. apply Forall_app in Hok. destruct Hok as [_ Hok]. exact (Forall_inv Hok). }
    set (tk := mi_v i && stage_rd (ms_r s) (srd && drd)). set (ack := v && srd && drd).
    assert (Est : stage_next (ms_r s) (mi_v i) (mi_w i) (srd && drd) = mk_stage KLat (if tk then true else v && negb (srd && drd)) (if tk then mi_w i else w)).
    { unfold stage_next, tk, stage_rd. rewrite Hk. fold v w. destruct v, (mi_v i), (srd && drd); reflexivity. }
    rewrite Est. constructor; cbn [ms_r sk occ sdat ms_c ms_d ms_s ms_e].
    - reflexivity.
    - exists (ps ++ (if ack then [w] else [])). split.
      { rewrite E1. fold v w. rewrite <- !app_assoc. f_equal. unfold ack, tk, stage_rd. rewrite Hk. fold v. destruct v, (mi_v i), srd, drd; reflexivity. }
      assert (Ec : closes (cnt_after 0 ps) w = last) by (unfold MeasSpec.closes, last; rewrite E2; reflexivity).
      split. { rewrite cnt_app, <- E2. rewrite E2 in *. destruct ack; [|reflexivity]. cbn [cnt_after]. rewrite Ec. rewrite <- E2 in *. destruct last; [reflexivity|apply inc_ok; exact Hle]. }
      split; [|split; [|split]].
      + eexists. split; [exact Fd1|]. rewrite cut_app, E3, <- !app_assoc. f_equal. unfold ack.
        replace (cut (cnt_after 0 ps) (if v && srd && drd then [w] else [])) with (if v && srd && drd then [mk_mw (mw_d w) (mw_s w) last] else []) by (destruct (v && srd && drd); cbn [MeasSpec.cut]; rewrite ?Ec; reflexivity).
        destruct (ovld (ms_d s)); [|reflexivity]. destruct (Fd2 eq_refl) as [q' ->]. destruct (mi_rd i); reflexivity.
      + eexists. split; [exact Fs1|]. rewrite sizes_app, E4, <- !app_assoc. f_equal. rewrite <- E2 in *.
        replace (sizes (ms_c s) (if ack then [w] else [])) with
          (if v && drd && last && srd then [(if strb && (last && negb (full (mw_s w))) then ms_c s else winc (me_cw MAX) (ms_c s)) * 2 ^ log2ceil B + (if strb then me_rem B (mw_s w) else 0)] else []).
        2:{ unfold ack. destruct v; cbn [andb]; [|reflexivity]. destruct srd, drd; cbn [andb]; rewrite ?andb_false_r; try reflexivity. rewrite andb_true_r. cbn [MeasSpec.sizes]. rewrite Ec, app_nil_r.
            destruct last; [|reflexivity]. rewrite size_ok; [reflexivity|exact Hle|exact (Hw eq_refl)]. }
        destruct (ovld (ms_s s)); [|reflexivity]. destruct (Fs2 eq_refl) as [q' ->]. destruct (mi_srd i); reflexivity.
      + intros Eb. rewrite Exists_app. intros [H|H]; [rewrite (He1 Eb H); reflexivity|]. unfold ack in H. destruct v; cbn [andb] in *; [|inversion H]. destruct (srd && drd); [|inversion H].
        inversion_clear H as [? ? Hm|? ? Hm]; [|inversion Hm]. destruct Hm as [Hm1 Hm2]. rewrite (full_valid w Eb (Hw eq_refl Eb)), Hm1. destruct (Nat.eqb_spec (valid_bytes B strb w) B); [contradiction|]. apply orb_true_r.
      + intros Eb H. apply Exists_app. left. apply orb_prop in H as [H|H]; [exact (He2 Eb H)|]. apply andb_prop in H as [H H3]. apply andb_prop in H as [H1 H2].
        rewrite E1. fold v w. rewrite H1. apply Exists_app. right. constructor. split; [destruct (mw_l w); [discriminate|reflexivity]|].
        rewrite (full_valid w Eb (Hw H1 Eb)) in H2. destruct (Nat.eqb_spec (valid_bytes B strb w) B); [discriminate|assumption].
    - apply Forall_app. split; [exact Hok|]. destruct (mi_v i && _); repeat constructor. exact Hi.
  Qed.
  Lemma inv_init w0 ms s0 md : inv (meas_init MAX SD w0 ms s0 md) [] [] [].
  Proof.
    constructor; [reflexivity| |constructor]. exists []. split; [reflexivity|]. split; [reflexivity|]. split; [|split; [|split]].
    - exists []. split; [|reflexivity]. apply (hrep_init (me_dd MAX) dd2). left. cbn. unfold me_dd. lia.
    - exists []. split; [|reflexivity]. apply (hrep_init SD HS). destruct (Nat.eq_dec SD 2); [right; cbn; lia|left; cbn; lia].
    - intros _ H. inversion H.
    - intros _ H. discriminate H.
  Qed.
  Lemma inv_run is : forall s acc dd ds, inv s acc dd ds -> Forall (fun i => strb = true -> strb_ok B (mi_w i)) is ->
    let t := trace step s is in inv (final step s is) (acc ++ flat_map ms_taken t) (dd ++ flat_map ms_sent t) (ds ++ flat_map ms_size t).
  Proof.
    induction is as [|i is IH]; intros s acc dd ds Hi HF t; unfold t; [cbn; rewrite !app_nil_r; exact Hi|]. rewrite trace_cons, final_cons. cbn [flat_map]. rewrite !app_assoc.
    apply IH; [|exact (Forall_inv_tail HF)]. apply inv_step; [exact Hi|exact (Forall_inv HF)].
  Qed.
  Lemma cut_len ws : forall n, length (cut n ws) = length ws.
  Proof. induction ws as [|w ws IH]; intros n; [reflexivity|]. cbn. rewrite IH. reflexivity. Qed.
  Lemma meas_all w0 ms s0 md is : Forall (fun i => strb = true -> strb_ok B (mi_w i)) is ->
    let t := trace step (meas_init MAX SD w0 ms s0 md) is in let taken := flat_map ms_taken t in
    (exists inside, cut 0 taken = flat_map ms_sent t ++ inside /\ length inside <= 2 * (MAX + 1) + 1) /\
    (exists inside, sizes 0 taken = flat_map ms_size t ++ inside /\ length inside <= SD + 1).
  Proof.
    intros HF t taken. destruct (inv_run is _ _ _ _ (inv_init w0 ms s0 md) HF) as [_ [ps [E1 [E2 [[qd [Hd E3]] [[qs [Hs E4]] _]]]]] _]. cbn [app] in E1, E3, E4. fold t in E1, E3, E4. fold taken in E1.
    pose proof (hrep_len _ dd2 _ _ Hd) as Ld. pose proof (hrep_len _ HS _ _ Hs) as Ls. rewrite E1. split.
    - eexists. split; [rewrite cut_app, E3, <- app_assoc; reflexivity|]. rewrite app_length, cut_len. unfold me_dd in Ld. destruct (occ _); cbn [length]; lia.
    - eexists. split; [rewrite sizes_app, E4, <- app_assoc; reflexivity|]. rewrite app_length. destruct (occ _); cbn [MeasSpec.sizes length]; [rewrite app_nil_r; destruct (closes _ _); cbn; lia|lia].
  Qed.
  (** a word is taken if there is space for it in both buffers *)
  Lemma meas_ready w0 ms s0 md is i : Forall (fun i => strb = true -> strb_ok B (mi_w i)) is ->
    let s := final step (meas_init MAX SD w0 ms s0 md) is in let t := trace step (meas_init MAX SD w0 ms s0 md) is in
    length (flat_map ms_taken t) < length (flat_map ms_sent t) + 2 * MAX + 1 -> length (sizes 0 (flat_map ms_taken t)) < length (flat_map ms_size t) + SD - 1 -> mo_rd (snd (step s i)) = true.
  Proof.
    intros HF s t H1 H2. destruct (inv_run is _ _ _ _ (inv_init w0 ms s0 md) HF) as [Hk [ps [E1 [E2 [[qd [Hd E3]] [[qs [Hs E4]] _]]]]] _]. cbn [app] in *. fold t in E1, E3, E4. fold s in Hk, E1, E2, Hd, Hs.
    pose proof (hrep_step SD HS (ms_s s) qs (mk_hin false 0 false) Hs) as Fs. pose proof (hrep_step (me_dd MAX) dd2 (ms_d s) qd (mk_hin false w0 false) Hd) as Fd.
    cbv zeta in Fs, Fd. rewrite step_out in Fs. rewrite step_out in Fd. cbn [h_rd] in Fs, Fd. destruct Fs as [_ [_ [_ [Fs _]]]]. destruct Fd as [_ [_ [_ [Fd _]]]].
    rewrite E1 in H1, H2. rewrite app_length in H1. rewrite sizes_app, E4, !app_length in H2. pose proof (f_equal (@length _) E3) as Q. rewrite cut_len, app_length in Q.
    unfold meas_step. rewrite (surjective_pairing (hsf_step SD (ms_s s) _)), (surjective_pairing (hsf_step (me_dd MAX) (ms_d s) _)). cbn [snd mo_rd].
    rewrite Fs by lia. rewrite Fd by (unfold me_dd; lia). unfold stage_rd. rewrite Hk. destruct (occ _); reflexivity.
  Qed.
  (** errorAlignment: it was a frame with a partial word inside; it is set no later than the word is sent *)
  Lemma meas_error w0 ms s0 md is i : strb = true -> Forall (fun i => strb = true -> strb_ok B (mi_w i)) is ->
    let s := final step (meas_init MAX SD w0 ms s0 md) is in let t := trace step (meas_init MAX SD w0 ms s0 md) is in
    let taken := flat_map ms_taken t in
    (mo_err (snd (step s i)) = true -> Exists (misaligned B strb) taken) /\
    (Exists (misaligned B strb) (firstn (length (flat_map ms_sent t)) taken) -> mo_err (snd (step s i)) = true).
  Proof.
    intros Eb HF s t taken. destruct (inv_run is _ _ _ _ (inv_init w0 ms s0 md) HF) as [Hk [ps [E1 [E2 [[qd [Hd E3]] [_ [He1 He2]]]]]] _]. cbn [app] in *. fold t in E1, E3, He2. fold taken in E1, He2. fold s in He1, He2.
    assert (mo_err (snd (step s i)) = ms_e s) as ->. { unfold meas_step. destruct (hsf_step SD _ _), (hsf_step (me_dd MAX) _ _). reflexivity. }
    split; [exact (He2 Eb)|]. intros H. apply (He1 Eb). pose proof (f_equal (@length _) E3) as Q. rewrite cut_len, app_length in Q. rewrite E1, firstn_app in H. apply Exists_app in H as [H|H].
    - rewrite <- (firstn_skipn (length (flat_map ms_sent t)) ps). apply Exists_app. left. exact H.
    - replace (length (flat_map ms_sent t) - length ps) with 0 in H by lia. inversion H.
  Qed.
  (** an offered word or size which is not taken stays *)
  Lemma meas_stable w0 ms s0 md is i j : Forall (fun i => strb = true -> strb_ok B (mi_w i)) is ->
    let s := final step (meas_init MAX SD w0 ms s0 md) is in let o := snd (step s i) in let o' := snd (step (fst (step s i)) j) in
    (mo_w o <> None -> mi_rd i = false -> mo_w o' = mo_w o) /\ (mo_s o <> None -> mi_srd i = false -> mo_s o' = mo_s o).
  Proof.
    intros HF s o o'. destruct (inv_run is _ _ _ _ (inv_init w0 ms s0 md) HF) as [Hk [ps [E1 [E2 [[qd [Hd E3]] [[qs [Hs E4]] _]]]]] _]. fold s in Hk, E1, E2, Hd, Hs.
    assert (forall s i, mo_w (snd (step s i)) = (if ovld (ms_d s) then Some (dreg (hf (ms_d s))) else None) /\ mo_s (snd (step s i)) = (if ovld (ms_s s) then Some (dreg (hf (ms_s s))) else None)) as Ho.
    { clear. intros s i. unfold meas_step. rewrite (surjective_pairing (hsf_step SD (ms_s s) _)), (surjective_pairing (hsf_step (me_dd MAX) (ms_d s) _)). rewrite (step_out SD), (step_out (me_dd MAX)). split; reflexivity. }
    unfold o, o'. rewrite (proj1 (Ho s i)), (proj2 (Ho s i)), (proj1 (Ho _ j)), (proj2 (Ho _ j)).
    unfold meas_step. match goal with |- context [hsf_step SD (ms_s s) ?a] => set (is0 := a) end. match goal with |- context [hsf_step (me_dd MAX) (ms_d s) ?a] => set (id0 := a) end.
    pose proof (hrep_step SD HS (ms_s s) qs is0 Hs) as Fs. pose proof (hrep_step (me_dd MAX) dd2 (ms_d s) qd id0 Hd) as Fd. cbv zeta in Fs, Fd. rewrite step_out in Fs. rewrite step_out in Fd. cbn [h_vld h_data] in Fs, Fd.
    destruct Fs as [_ [_ [Fs _]]]. destruct Fd as [_ [_ [Fd _]]].
    rewrite (surjective_pairing (hsf_step SD (ms_s s) is0)), (surjective_pairing (hsf_step (me_dd MAX) (ms_d s) id0)). cbn [fst ms_d ms_s]. split; intros Q1 Q2.
    - destruct (ovld (ms_d s)); [|contradiction]. destruct (Fd eq_refl Q2) as [-> ->]. reflexivity.
    - destruct (ovld (ms_s s)); [|contradiction]. destruct (Fs eq_refl Q2) as [-> ->]. reflexivity.
  Qed.
End Proofs.
