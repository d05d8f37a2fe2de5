From Verif Require Import Base BaseFacts GrayModel GraySpec GrayProofs FifoAsyncModel FifoAsyncSpec.

Section Codes.
  Variable AW : nat.
  Notation M := (2 ^ (N.of_nat AW + 1))%N.
  Notation D := (2 ^ N.of_nat AW)%N.

  Lemma M_2D : (M = 2 * D)%N.
  Proof. rewrite N.add_1_r, N.pow_succ_r by lia. reflexivity. Qed.
  Lemma D_pos : (0 < D)%N.
  Proof. pose proof (N.pow_nonzero 2 (N.of_nat AW)). lia. Qed.

  Lemma full_code_lxor g : 1 <= AW -> (g < M)%N ->
    full_code AW g = N.lxor g (N.lxor (2 ^ N.of_nat AW) (2 ^ (N.of_nat AW - 1)))%N.
  Proof.
    intros HAW Hg. unfold full_code. set (k := (N.of_nat AW - 1)%N).
    assert (N.of_nat AW = k + 1)%N as Ek by lia. rewrite Ek in *.
    assert (2 ^ k <> 0)%N as Hk0 by (apply N.pow_nonzero; lia).
    assert (g mod 2 ^ k < 2 ^ k)%N as Hlt by (apply N.mod_lt; exact Hk0).
    assert (N.lxor 3 (N.shiftr g k) < 4)%N as H4.
    { apply (lt_pow_bits _ 2). intros j Hj. rewrite N.lxor_spec, N.shiftr_spec by lia.
      rewrite (proj1 (lt_pow_bits g _) Hg) by lia. rewrite (proj1 (lt_pow_bits 3 2) eq_refl) by exact Hj. reflexivity. }
    apply N.bits_inj. intros j.
    rewrite !N.lxor_spec, !N.pow2_bits_eqb.
    rewrite <- N.shiftl_mul_pow2. rewrite N.add_nocarry_lxor.
    2:{ apply N.bits_inj. intros i. rewrite N.land_spec, N.bits_0.
        destruct (N.lt_ge_cases i k) as [L|L].
        - rewrite N.shiftl_spec_low by exact L. reflexivity.
        - rewrite N.mod_pow2_bits_high by exact L. apply andb_false_r. }
    rewrite N.lxor_spec. destruct (N.lt_ge_cases j k) as [L|L].
    - rewrite N.shiftl_spec_low, N.mod_pow2_bits_low by exact L.
      destruct (N.eqb_spec (k + 1) j); [lia|]. destruct (N.eqb_spec k j); [lia|]. destruct (N.testbit g j); reflexivity.
    - rewrite N.shiftl_spec_high', N.mod_pow2_bits_high by exact L. rewrite N.lxor_spec, N.shiftr_spec by lia.
      replace (j - k + k)%N with j by lia. rewrite xorb_false_r.
      destruct (N.eq_dec j k) as [->|N1].
      + rewrite N.sub_diag, N.eqb_refl. destruct (N.eqb_spec (k + 1) k); [lia|].
        destruct (N.testbit g k); reflexivity.
      + destruct (N.eq_dec j (k + 1)) as [->|N2].
        * replace (k + 1 - k)%N with 1%N by lia. rewrite N.eqb_refl. destruct (N.eqb_spec k (k + 1)); [lia|].
          destruct (N.testbit g (k + 1)); reflexivity.
        * destruct (N.eqb_spec (k + 1) j); [lia|]. destruct (N.eqb_spec k j); [lia|].
          rewrite (proj1 (lt_pow_bits 3 2) eq_refl) by lia. destruct (N.testbit g j); reflexivity.
  Qed.

  Lemma flip_top x : (x < M)%N -> N.lxor x D = ((x + D) mod M)%N.
  Proof.
    intros Hx. pose proof M_2D as HM. pose proof D_pos as HD.
    assert (forall y, y < D -> N.lxor y D = y + D)%N as Hlow.
    { intros y Hy. rewrite N.add_nocarry_lxor; [reflexivity|]. apply N.bits_inj. intros i.
      rewrite N.land_spec, N.bits_0, N.pow2_bits_eqb. destruct (N.eqb_spec (N.of_nat AW) i) as [<-|_]; [|apply andb_false_r].
      rewrite (proj1 (lt_pow_bits y _) Hy) by lia. reflexivity. }
    destruct (N.lt_ge_cases x D) as [L|L].
    - rewrite (Hlow x L), N.mod_small by lia. reflexivity.
    - replace x with ((x - D) + D)%N at 1 by lia. rewrite <- Hlow by lia.
      rewrite N.lxor_assoc, N.lxor_nilpotent, N.lxor_0_r.
      replace (x + D)%N with ((x - D) + 1 * M)%N by lia. rewrite N.mod_add by lia. rewrite N.mod_small by lia. reflexivity.
  Qed.

  (** gray code of an unbounded counter *)
  Definition code (n : N) : N := bin_to_gray (n mod M).

  Lemma code_full (HAW : 1 <= AW) n : full_code AW (code n) = code (n + D).
  Proof.
    pose proof M_2D as HM. pose proof D_pos as HD.
    assert (n mod M < M)%N as Hn by (apply N.mod_lt; lia).
    unfold code. rewrite full_code_lxor by (assumption || apply gray_lt; exact Hn).
    replace ((n + D) mod M)%N with (((n mod M) + D) mod M)%N by (rewrite N.add_mod_idemp_l by lia; reflexivity).
    rewrite <- flip_top by exact Hn. rewrite gray_lxor. f_equal.
    unfold bin_to_gray. rewrite N.lxor_comm. f_equal.
    rewrite N.shiftr_div_pow2. change (2 ^ 1)%N with 2%N.
    replace (N.of_nat AW) with (N.succ (N.of_nat AW - 1)) at 2 by lia. rewrite N.pow_succ_r by lia.
    rewrite N.mul_comm, N.div_mul by lia. reflexivity.
  Qed.

  Lemma code_eq a b : (a <= b -> b < a + M -> code a = code b <-> a = b)%N.
  Proof.
    intros H1 H2. split; [|congruence]. intros H. apply gray_inj in H.
    pose proof M_2D as HM. pose proof D_pos as HD.
    pose proof (N.div_mod a M ltac:(lia)) as Ea. pose proof (N.div_mod b M ltac:(lia)) as Eb.
    rewrite H in Ea. assert (0 < M)%N as HMp by lia. clear H HM HD.
    revert Ea Eb. generalize (a / M)%N, (b / M)%N, (b mod M)%N. intros qa qb r Ea Eb.
    assert (qb = qa) as ->; [|congruence].
    assert (M * qb < M * (qa + 1))%N as X1 by lia. assert (M * qa < M * (qb + 1))%N as X2 by lia.
    apply N.mul_lt_mono_pos_l in X1; [|exact HMp]. apply N.mul_lt_mono_pos_l in X2; [|exact HMp]. lia.
  Qed.

  Lemma bin_inc_mod n : bin_inc AW (n mod M)%N = ((n + 1) mod M)%N.
  Proof. unfold bin_inc. rewrite N.add_mod_idemp_l; [reflexivity|]. pose proof M_2D; pose proof D_pos; lia. Qed.

  Lemma mem_idx_mod n : mem_idx AW (n mod M)%N = N.to_nat (n mod D).
  Proof.
    unfold mem_idx. f_equal. pose proof M_2D as HM. pose proof D_pos as HD. rewrite HM.
    rewrite N.mul_comm, N.mod_mul_r by lia. rewrite N.mul_comm, N.mod_add by lia. apply N.mod_mod. lia.
  Qed.
End Codes.

Section Inv.
  Context {A : Type}.
  Variable AW : nat.
  Hypothesis HAW : 1 <= AW.
  Notation M := (2 ^ (N.of_nat AW + 1))%N.
  Notation D := (2 ^ N.of_nat AW)%N.

  (** Counters behind the registers: W, R words written and read; r1, r2, rf what the write domain believes about R;
      w1, w2, wf what the read domain believes about W. *)
  Record ctr := mk_ctr { cW : N; cR : N; c_r1 : N; c_r2 : N; c_rf : N; c_w1 : N; c_w2 : N; c_wf : N }.

  Record FA (s : fa_st A) (c : ctr) (q : list A) : Prop := {
    fa_chain : (c_rf c <= c_r2 c /\ c_r2 c <= c_r1 c /\ c_r1 c <= cR c /\ cR c <= c_wf c /\ c_wf c <= c_w2 c /\
                c_w2 c <= c_w1 c /\ c_w1 c <= cW c /\ cW c <= c_rf c + D)%N;
    fa_wbin : a_wbin s = (cW c mod M)%N;
    fa_rbin : a_rbin s = (cR c mod M)%N;
    fa_wgray : a_wgray s = code AW (cW c);
    fa_rgray : a_rgray s = code AW (cR c);
    fa_r1 : a_r1 s = code AW (c_r1 c);
    fa_r2 : a_r2 s = code AW (c_r2 c);
    fa_w1 : a_w1 s = code AW (c_w1 c);
    fa_w2 : a_w2 s = code AW (c_w2 c);
    fa_full : a_wfull s = N.eqb (cW c) (c_rf c + D);
    fa_empty : a_rempty s = N.eqb (cR c) (c_wf c);
    fa_q : N.of_nat (length q) = (cW c - cR c)%N;
    fa_cells : forall k x, nth_error q k = Some x -> a_mem s (N.to_nat ((cR c + N.of_nat k) mod D)) = x }.

  Lemma FA_init m0 d0 : FA (fa_init m0 d0) (mk_ctr 0 0 0 0 0 0 0 0) [].
  Proof.
    pose proof (D_pos AW) as HD.
    assert (code AW 0 = 0)%N as E0 by (unfold code; rewrite N.mod_0_l; [reflexivity|pose proof (M_2D AW); lia]).
    constructor; cbn; auto; try (rewrite E0; reflexivity); try lia.
    - destruct (N.eqb_spec 0 D); [lia|]. destruct D; [lia|reflexivity].
    - intros [|k] x H; discriminate.
  Qed.

  Lemma full_eqb w' r : (r <= w' -> w' <= r + D -> N.eqb (code AW w') (full_code AW (code AW r)) = N.eqb w' (r + D))%N.
  Proof.
    intros H1 H2. rewrite (code_full AW HAW). pose proof (M_2D AW). pose proof (D_pos AW).
    pose proof (code_eq AW w' (r + D) H2 ltac:(lia)) as E.
    destruct (N.eqb_spec (code AW w') (code AW (r + D)%N)), (N.eqb_spec w' (r + D)%N); try reflexivity; exfalso; tauto.
  Qed.

  Lemma empty_eqb r' w : (r' <= w -> w <= r' + D -> N.eqb (code AW r') (code AW w) = N.eqb r' w)%N.
  Proof.
    intros H1 H2. pose proof (M_2D AW). pose proof (D_pos AW).
    pose proof (code_eq AW r' w H1 ltac:(lia)) as E.
    destruct (N.eqb_spec (code AW r') (code AW w)), (N.eqb_spec r' w); try reflexivity; exfalso; tauto.
  Qed.

  Definition wen (s : fa_st A) (e : fa_ev A) : bool :=
    match ev_w e with Some (en, _) => en && negb (a_wfull s) | None => false end.
  Definition ren (s : fa_st A) (e : fa_ev A) : bool :=
    match ev_r e with Some en => en && negb (a_rempty s) | None => false end.

  Definition nextc (s : fa_st A) (c : ctr) (e : fa_ev A) : ctr :=
    let W' := (cW c + N.b2n (wen s e))%N in
    let R' := (cR c + N.b2n (ren s e))%N in
    match ev_w e, ev_r e with
    | Some _, Some _ => mk_ctr W' R' (if ev_seenew_w e then R' else cR c) (c_r1 c) (c_r2 c)
                               (if ev_seenew_r e then W' else cW c) (c_w1 c) (c_w2 c)
    | Some _, None => mk_ctr W' (cR c) (cR c) (c_r1 c) (c_r2 c) (c_w1 c) (c_w2 c) (c_wf c)
    | None, Some _ => mk_ctr (cW c) R' (c_r1 c) (c_r2 c) (c_rf c) (cW c) (c_w1 c) (c_w2 c)
    | None, None => c
    end.

  Ltac nlia := repeat match goal with
    | H : context [N.modulo _ _] |- _ => clear H
    | H : context [N.div _ _] |- _ => clear H end; lia.

  Lemma FA_step s c q e : FA s c q ->
    let o := snd (fa_step AW s e) in
    exists q', FA (fst (fa_step AW s e)) (nextc s c e) q' /\
               fa_got1 (e, o) ++ q' = q ++ fa_written1 (e, o).
  Proof.
    intros F o. pose proof F as F'. destruct F' as [Hc H1 H2 H3 H4 H5 H6 H7 H8 H9 H10 H11 H12].
    pose proof (M_2D AW) as HM. pose proof (D_pos AW) as HD.
    set (we := wen s e) in *. set (re := ren s e) in *.
    assert (cW c + N.b2n we <= c_rf c + D)%N as HW.
    { unfold we, wen. destruct (ev_w e) as [[en d]|]; [|cbn [N.b2n]; nlia]. rewrite H9.
      destruct (N.eqb_spec (cW c) (c_rf c + D)), en; cbn [negb andb N.b2n]; nlia. }
    assert (cR c + N.b2n re <= c_wf c)%N as HR.
    { unfold re, ren. destruct (ev_r e) as [en|]; [|cbn [N.b2n]; nlia]. rewrite H10.
      destruct (N.eqb_spec (cR c) (c_wf c)), en; cbn [negb andb N.b2n]; nlia. }
    assert ((if we then bin_inc AW (a_wbin s) else a_wbin s) = ((cW c + N.b2n we) mod M)%N) as EW.
    { rewrite H1. destruct we; cbn [N.b2n]; [apply bin_inc_mod|rewrite N.add_0_r; reflexivity]. }
    assert ((if re then bin_inc AW (a_rbin s) else a_rbin s) = ((cR c + N.b2n re) mod M)%N) as ER.
    { rewrite H2. destruct re; cbn [N.b2n]; [apply bin_inc_mod|rewrite N.add_0_r; reflexivity]. }
    set (d := match ev_w e with Some (_, d) => [d] | None => [] end).
    set (q1 := q ++ if we then d else []).
    assert (fa_written1 (e, o) = if we then d else []) as Ewr.
    { unfold fa_written1, we, wen, d. cbn [fst snd]. unfold o, fa_step. cbn [snd ao_wwait].
      destruct (ev_w e) as [[[] x]|]; destruct (a_wfull s); reflexivity. }
    set (mem' := match ev_w e with Some (_, d) => if we then upd (a_mem s) (mem_idx AW (a_wbin s)) d else a_mem s | None => a_mem s end).
    assert (N.of_nat (length q1) = (cW c + N.b2n we - cR c)%N) as Hl1.
    { unfold q1. rewrite app_length, Nat2N.inj_add, H11. unfold d, we, wen.
      destruct (ev_w e) as [[en x]|]; [destruct (en && negb (a_wfull s))|]; cbn [length N.b2n]; nlia. }
    assert (forall k x, nth_error q1 k = Some x -> mem' (N.to_nat ((cR c + N.of_nat k) mod D)) = x) as Hm1.
    { intros k x. unfold q1, mem'. clearbody re. destruct we eqn:Ewe.
      2:{ rewrite app_nil_r. intros Hk. destruct (ev_w e) as [[? ?]|]; apply H12; exact Hk. }
      unfold we, wen in Ewe. unfold d. destruct (ev_w e) as [[en y]|]; [|discriminate].
      rewrite H1, mem_idx_mod. cbn [N.b2n] in HW.
      intros Hk. destruct (Nat.lt_ge_cases k (length q)) as [L|L].
      - rewrite nth_error_app1 in Hk by exact L. rewrite upd_neq; [apply H12; exact Hk|].
        intros E. apply N2Nat.inj in E.
        assert (N.of_nat k < cW c - cR c)%N as Lk by nlia.
        pose proof (N.div_mod (cR c + N.of_nat k) D ltac:(nlia)) as Ea.
        pose proof (N.div_mod (cW c) D ltac:(nlia)) as Eb. rewrite E in Ea.
        set (qa := ((cR c + N.of_nat k) / D)%N) in *. set (qb := (cW c / D)%N) in *.
        set (r := (cW c mod D)%N) in *.
        assert (D * qb < D * (qa + 1))%N as X1 by (clearbody qa qb r; nlia). assert (D * qa < D * qb)%N as X2 by (clearbody qa qb r; nlia).
        apply N.mul_lt_mono_pos_l in X1; [|exact HD]. apply N.mul_lt_mono_pos_l in X2; [|exact HD]. nlia.
      - rewrite nth_error_app2 in Hk by exact L.
        destruct (k - length q) as [|j] eqn:Ej; [|destruct j; discriminate].
        replace (cR c + N.of_nat k)%N with (cW c) by nlia. injection Hk as <-. apply upd_eq. }
    exists (if re then tl q1 else q1).
    assert (re = true -> exists x q', q = x :: q' /\ a_mem s (mem_idx AW (a_rbin s)) = x) as Hre.
    { intros E. rewrite E in HR. cbn [N.b2n] in HR. destruct q as [|x q']; [cbn in H11; nlia|].
      exists x, q'. split; [reflexivity|]. rewrite H2, mem_idx_mod.
      rewrite <- (H12 0 x eq_refl). rewrite N.add_0_r. reflexivity. }
    assert (fa_got1 (e, o) ++ (if re then tl q1 else q1) = q1) as Eg.
    { assert (fa_got1 (e, o) = if re then [a_mem s (mem_idx AW (a_rbin s))] else []) as ->.
      { unfold fa_got1, o, fa_step. cbn [fst snd ao_rwait ao_rdata]. unfold re, ren.
        destruct (ev_r e) as [[]|]; destruct (a_rempty s); reflexivity. }
      destruct re; [|reflexivity]. destruct (Hre eq_refl) as [x [q' [-> ->]]]. reflexivity. }
    split; [|rewrite Ewr; exact Eg].
    assert (N.of_nat (length (if re then tl q1 else q1)) = (cW c + N.b2n we - (cR c + N.b2n re))%N) as Hl2.
    { destruct re; cbn [N.b2n]; [|rewrite N.add_0_r; exact Hl1].
      assert (length (tl q1) = (length q1 - 1)%nat) as -> by (destruct q1; simpl; nlia). nlia. }
    assert (forall k x, nth_error (if re then tl q1 else q1) k = Some x ->
              mem' (N.to_nat ((cR c + N.b2n re + N.of_nat k) mod D)) = x) as Hm2.
    { intros k x. destruct re; cbn [N.b2n]; [|rewrite N.add_0_r; apply Hm1].
      intros Hk. replace (cR c + 1 + N.of_nat k)%N with (cR c + N.of_nat (S k))%N by nlia. apply Hm1.
      destruct q1; [destruct k; discriminate|exact Hk]. }
    assert (bin_to_gray ((cW c + N.b2n we) mod M) = code AW (cW c + N.b2n we))%N as GW by reflexivity.
    assert (bin_to_gray ((cR c + N.b2n re) mod M) = code AW (cR c + N.b2n re))%N as GR by reflexivity.
    unfold fa_step. fold (wen s e). fold (ren s e). fold we. fold re. rewrite EW, ER, GW, GR.
    unfold nextc. fold we. fold re.
    unfold mem', d in *. clear mem' d.
    destruct (ev_w e) as [[en x]|] eqn:Ew, (ev_r e) as [en'|] eqn:Er; cbn [fst].
    - constructor; cbn; try assumption; try reflexivity.
      + destruct (ev_seenew_w e), (ev_seenew_r e); repeat split; nlia.
      + destruct (ev_seenew_w e); [reflexivity|assumption].
      + destruct (ev_seenew_r e); [reflexivity|assumption].
      + rewrite H6. apply full_eqb; nlia.
      + rewrite H8. apply empty_eqb; nlia.
    - assert (re = false) as Ere by (unfold re, ren; rewrite Er; reflexivity). rewrite Ere in *.
      cbn [N.b2n] in *. rewrite N.add_0_r in *.
      constructor; cbn; try assumption; try reflexivity.
      + repeat split; nlia.
      + rewrite H6. apply full_eqb; nlia.
    - assert (we = false) as Ewe by (unfold we, wen; rewrite Ew; reflexivity). rewrite Ewe in *.
      cbn [N.b2n] in *. rewrite N.add_0_r in *.
      constructor; cbn; try assumption; try reflexivity.
      + repeat split; nlia.
      + rewrite H8. apply empty_eqb; nlia.
    - assert (we = false) as Ewe by (unfold we, wen; rewrite Ew; reflexivity).
      assert (re = false) as Ere by (unfold re, ren; rewrite Er; reflexivity). rewrite Ewe, Ere in *.
      unfold q1. rewrite Ewe, app_nil_r. exact F.
  Qed.

  Lemma FA_run m0 d0 (es : list (fa_ev A)) :
    let t := trace (fa_step AW) (fa_init m0 d0) es in
    exists c q, FA (final (fa_step AW) (fa_init m0 d0) es) c q /\ fa_written t = fa_got t ++ q.
  Proof.
    cbv zeta. induction es as [|e es IH] using rev_ind.
    - exists (mk_ctr 0 0 0 0 0 0 0 0), []. split; [apply FA_init|reflexivity].
    - destruct IH as (c & q & F & E). rewrite final_snoc, trace_snoc.
      destruct (FA_step _ c q e F) as [q' [F' E']].
      eexists _, q'. split; [exact F'|].
      unfold fa_written, fa_got in *. rewrite !flat_map_app, E. cbn [flat_map]. rewrite !app_nil_r.
      rewrite <- !app_assoc. f_equal. symmetry. exact E'.
  Qed.

  Lemma FA_law m0 d0 (es : list (fa_ev A)) :
    let t := trace (fa_step AW) (fa_init m0 d0) es in
    exists inside, fa_written t = fa_got t ++ inside /\ length inside <= 2 ^ AW.
  Proof.
    cbv zeta. destruct (FA_run m0 d0 es) as (c & q & F & E). exists q. split; [exact E|].
    pose proof (fa_q _ _ _ F) as Hl. pose proof (fa_chain _ _ _ F) as Hc.
    assert (N.of_nat (length q) <= D)%N as H by lia.
    lia.
  Qed.

  (** Progress of the synchronisers: k read edges move what the read domain knows. *)
  Definition seen (k : nat) (c : ctr) (W0 : N) : Prop :=
    match k with
    | 0 => True
    | 1 => (W0 <= c_w1 c)%N
    | 2 => (W0 <= c_w2 c)%N
    | _ => (W0 <= c_wf c)%N
    end.
  Definition seen_r (k : nat) (c : ctr) (R0 : N) : Prop :=
    match k with
    | 0 => True
    | 1 => (R0 <= c_r1 c)%N
    | 2 => (R0 <= c_r2 c)%N
    | _ => (R0 <= c_rf c)%N
    end.

  Lemma seen_step s c q e W0 k : FA s c q -> (W0 <= cW c)%N -> seen k c W0 ->
    seen (k + r_edges [e]) (nextc s c e) W0 /\ (W0 <= cW (nextc s c e))%N.
  Proof.
    intros F HW Hs. pose proof (fa_chain _ _ _ F) as Hc. unfold r_edges, nextc. cbn [filter].
    assert (0 <= N.b2n (wen s e))%N by lia.
    destruct (ev_w e) as [[]|], (ev_r e); cbn [length]; rewrite ?Nat.add_0_r, ?Nat.add_1_r;
      (split; [destruct k as [|[|[|k]]]; cbn [seen c_w1 c_w2 c_wf] in *; try exact Hs; try lia|cbn [cW]; try lia]);
      try (destruct (ev_seenew_r e)); lia.
  Qed.

  Lemma seen_r_step s c q e R0 k : FA s c q -> (R0 <= cR c)%N -> seen_r k c R0 ->
    seen_r (k + w_edges [e]) (nextc s c e) R0 /\ (R0 <= cR (nextc s c e))%N.
  Proof.
    intros F HW Hs. pose proof (fa_chain _ _ _ F) as Hc. unfold w_edges, nextc. cbn [filter].
    assert (0 <= N.b2n (ren s e))%N by lia.
    destruct (ev_w e) as [[]|], (ev_r e); cbn [length]; rewrite ?Nat.add_0_r, ?Nat.add_1_r;
      (split; [destruct k as [|[|[|k]]]; cbn [seen_r c_r1 c_r2 c_rf] in *; try exact Hs; try lia|cbn [cR]; try lia]);
      try (destruct (ev_seenew_w e)); lia.
  Qed.

  Lemma edges_snoc_r (es : list (fa_ev A)) e : r_edges (es ++ [e]) = r_edges es + r_edges [e].
  Proof. unfold r_edges. rewrite filter_app, app_length. reflexivity. Qed.
  Lemma edges_snoc_w (es : list (fa_ev A)) e : w_edges (es ++ [e]) = w_edges es + w_edges [e].
  Proof. unfold w_edges. rewrite filter_app, app_length. reflexivity. Qed.

  (** From a represented state, run [es] and keep the counters. *)
  Lemma prog_run s c q es : FA s c q ->
    exists c' q', FA (final (fa_step AW) s es) c' q' /\
      fa_got (trace (fa_step AW) s es) ++ q' = q ++ fa_written (trace (fa_step AW) s es) /\
      seen (r_edges es) c' (cW c) /\ (cW c <= cW c')%N /\
      seen_r (w_edges es) c' (cR c) /\ (cR c <= cR c')%N /\
      (cR c' = cR c + N.of_nat (length (fa_got (trace (fa_step AW) s es))))%N /\
      (cW c' = cW c + N.of_nat (length (fa_written (trace (fa_step AW) s es))))%N.
  Proof.
    intros F. induction es as [|e es IH] using rev_ind.
    - exists c, q. split; [exact F|]. split; [rewrite app_nil_r; reflexivity|]. cbn. repeat split; lia.
    - destruct IH as (c1 & q1 & F1 & E1 & S1 & W1 & S2 & R1 & L1 & L2).
      rewrite final_snoc, trace_snoc, edges_snoc_r, edges_snoc_w.
      set (s1 := final (fa_step AW) s es) in *.
      destruct (FA_step s1 c1 q1 e F1) as [q2 [F2 E2]].
      destruct (seen_step s1 c1 q1 e _ _ F1 W1 S1) as [S1' W1'].
      destruct (seen_r_step s1 c1 q1 e _ _ F1 R1 S2) as [S2' R1'].
      exists (nextc s1 c1 e), q2. split; [exact F2|].
      unfold fa_written, fa_got in *. rewrite !flat_map_app. cbn [flat_map]. rewrite !app_nil_r.
      split; [rewrite <- app_assoc, E2, app_assoc, E1, app_assoc; reflexivity|].
      split; [exact S1'|]. split; [exact W1'|]. split; [exact S2'|]. split; [exact R1'|].
      rewrite !app_length, !Nat2N.inj_add, !N.add_assoc, <- L1, <- L2.
      unfold nextc, fa_got1, fa_written1, fa_step. cbn [fst snd ao_rwait ao_wwait].
      unfold ren, wen. destruct (ev_w e) as [[[] x]|], (ev_r e) as [[]|], (a_wfull s1), (a_rempty s1); cbn; split; lia.
  Qed.
End Inv.

Lemma c20_prog : forall (A : Type) (AW : nat) (m0 : nat -> A) (d0 : A) (es fs : list (fa_ev A)) (e : fa_ev A),
    1 <= AW -> 3 <= r_edges fs ->
    let s0 := fa_init m0 d0 in
    let t := trace (fa_step AW) s0 es in
    let t' := trace (fa_step AW) s0 (es ++ fs) in
    length (fa_got t') < length (fa_written t) ->
    ao_rwait (snd (fa_step AW (final (fa_step AW) s0 (es ++ fs)) e)) = false.
Proof.
  intros A AW m0 d0 es fs e HAW Hfs s0 t t' Hlt.
  destruct (FA_run AW HAW m0 d0 es) as (c & q & F & E). fold s0 in F, E. fold t in E.
  destruct (prog_run AW HAW _ c q fs F) as (c' & q' & F' & E' & S & W & _ & _ & L1 & L2).
  rewrite final_app. cbn [fa_step snd ao_rwait]. rewrite (fa_empty _ _ _ _ F').
  assert (cW c <= c_wf c')%N as Hwf.
  { destruct (r_edges fs) as [|[|[|k]]]; try lia. exact S. }
  apply N.eqb_neq. intros Heq.
  unfold t' in Hlt. rewrite trace_app in Hlt. fold t in Hlt. unfold fa_got in Hlt. rewrite flat_map_app in Hlt.
  fold (fa_got t) in Hlt.
  fold (fa_got (trace (fa_step AW) (final (fa_step AW) s0 es) fs)) in Hlt.
  rewrite app_length in Hlt. apply (f_equal (@length A)) in E. rewrite app_length in E.
  pose proof (fa_q _ _ _ _ F) as Hq. pose proof (fa_chain _ _ _ _ F) as Hc. lia.
Qed.

Lemma c20_prog_w : forall (A : Type) (AW : nat) (m0 : nat -> A) (d0 : A) (es fs : list (fa_ev A)) (e : fa_ev A),
    1 <= AW -> 3 <= w_edges fs ->
    let s0 := fa_init m0 d0 in
    let t := trace (fa_step AW) s0 es in
    let t' := trace (fa_step AW) s0 (es ++ fs) in
    length (fa_written t') < length (fa_got t) + 2 ^ AW ->
    ao_wwait (snd (fa_step AW (final (fa_step AW) s0 (es ++ fs)) e)) = false.
Proof.
  intros A AW m0 d0 es fs e HAW Hfs s0 t t' Hlt.
  assert (exists c q, FA AW (final (fa_step AW) s0 es) c q /\
            cW c = N.of_nat (length (fa_written t)) /\ cR c = N.of_nat (length (fa_got t))) as (c & q & F & EW & ER).
  { destruct (prog_run AW HAW _ _ _ es (FA_init AW HAW m0 d0)) as (c & q & F & _ & _ & _ & _ & _ & L1 & L2).
    exists c, q. cbn in L1, L2. auto. }
  destruct (prog_run AW HAW _ c q fs F) as (c' & q' & F' & E' & _ & _ & S & W & L1 & L2).
  rewrite final_app. cbn [fa_step snd ao_wwait]. rewrite (fa_full _ _ _ _ F').
  assert (cR c <= c_rf c')%N as Hrf.
  { destruct (w_edges fs) as [|[|[|k]]]; try lia. exact S. }
  apply N.eqb_neq. intros Heq.
  unfold t' in Hlt. rewrite trace_app in Hlt. fold t in Hlt. unfold fa_written in Hlt. rewrite flat_map_app in Hlt.
  fold (fa_written t) in Hlt.
  fold (fa_written (trace (fa_step AW) (final (fa_step AW) s0 es) fs)) in Hlt.
  rewrite app_length in Hlt.
  assert (2 ^ N.of_nat AW = N.of_nat (2 ^ AW))%N as Ep by (lia).
  rewrite Ep in Heq. lia.
Qed.

Definition w (x : nat) := mk_ev (Some (true, x)) None false false.
Definition r := mk_ev (@None (bool * nat)) (Some true) false false.
Definition wr (x : nat) (a b : bool) := mk_ev (Some (true, x)) (Some true) a b.

