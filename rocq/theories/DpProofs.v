From Verif Require Import Base BaseFacts DpModel DpSpec.

Lemma seq_shift_add m n : seq m n = map (fun k => m + k) (seq 0 n).
Proof.
  revert m. induction n as [|n IH]; intros m; [reflexivity|]. cbn [seq map]. f_equal; [lia|].
  rewrite IH, <- seq_shift, map_map. apply map_ext. intros k. lia.
Qed.

Lemma N_len c : len_max c + 1 = 2 ^ LW c.
Proof. unfold len_max. pose proof (pow2_pos (LW c)). lia. Qed.

Section Arith.
  Variable c : dpcfg.
  Hypotheses (Hc : dp_cfg_ok c) (HW : 2 <= WB c).
  Lemma log2ceil_pow k : 1 <= k -> log2ceil (2 ^ k) = k.
  Proof.
    intros H. unfold log2ceil. assert (2 <= 2 ^ k) by (change 2 with (2 ^ 1) at 1; apply Nat.pow_le_mono_r; lia).
    replace (2 ^ k <=? 1) with false by (symmetry; apply Nat.leb_gt; lia). apply Nat.log2_up_pow2. lia.
  Qed.
  Lemma wb_bits : 2 ^ sbits c = WB c /\ sbits c <= AW c.
  Proof.
    destruct Hc as [[k [E L]] _]. unfold sbits. destruct k as [|k]; [cbn in E; lia|]. rewrite E, log2ceil_pow by lia. lia.
  Qed.
  Lemma wb_div : exists d, 2 ^ AW c = WB c * d.
  Proof. destruct wb_bits as [E L]. exists (2 ^ (AW c - sbits c)). rewrite <- E, <- Nat.pow_add_r. f_equal. lia. Qed.

  Lemma no_al_err q : dreq_ok c q -> chunk_aligned c q -> alignment_error c (q_addr q) = false.
  Proof.
    intros [_ [_ [_ Ha]]] Hk. unfold alignment_error. destruct (Nat.eqb_spec (AL c) 1) as [E|E]; [reflexivity|].
    apply negb_false_iff, Nat.eqb_eq. destruct Hk as [Hk|Hk]; [congruence|].
    destruct Hc as [_ [[a Ea] [_ [b Eb]]]]. destruct b as [|b].
    - rewrite Eb. cbn [Nat.pow]. change (log2ceil 1) with 1. rewrite Nat.pow_1_r.
      destruct a as [|a]; [cbn in Ea; congruence|].
      rewrite Ea in Ha. cbn [Nat.pow] in Ha. apply Nat.mod_divides in Ha; [|pose proof (pow2_pos a); lia].
      destruct Ha as [d Hd]. rewrite Hd. replace (2 * 2 ^ a * d) with (2 ^ a * d * 2) by lia. apply Nat.mod_mul. lia.
    - rewrite Eb, log2ceil_pow by lia. rewrite <- Eb. exact Hk.
  Qed.

  (** the number of words *)
  Lemma new_len_words q : dreq_ok c q -> new_len c q + 1 = req_words (WB c) q.
  Proof.
    intros [Hq [_ [Hr Ha]]]. destruct wb_bits as [Ew _].
    unfold new_len, req_words, req_bytes, addr_is_aligned, addr_offset, crossing, addr_offset. rewrite Ew.
    set (a := q_addr q) in *. set (r := if q_rem q =? 0 then WB c else q_rem q).
    assert (1 <= r <= WB c) as Hr' by (unfold r; destruct (Nat.eqb_spec (q_rem q) 0); lia).
    pose proof (Nat.div_mod a (WB c) ltac:(lia)) as Hd. pose proof (Nat.mod_upper_bound a (WB c) ltac:(lia)) as Ho.
    set (o := a mod WB c) in *. set (w := a / WB c) in *.
    assert (2 ^ (sbits c + 1) = 2 * WB c) as E2 by (rewrite Nat.add_1_r; cbn [Nat.pow]; lia).
    assert ((if q_rem q =? 0 then wrap (sbits c + 1) (WB c) else wrap (sbits c + 1) (q_rem q)) = r) as ->.
    { unfold r, wrap. rewrite E2. destruct (q_rem q =? 0); apply Nat.mod_small; lia. }
    assert (wrap (sbits c + 1) (WB c + 2 ^ (sbits c + 1) - o) = WB c - o) as ->.
    { unfold wrap. rewrite E2. replace (WB c + 2 * WB c - o) with (WB c - o + 1 * (2 * WB c)) by lia.
      rewrite Nat.mod_add by lia. apply Nat.mod_small. lia. }
    assert ((a + (q_len q * WB c + r) - 1) / WB c = w + q_len q + (if WB c - o <? r then 1 else 0)) as ->.
    { replace (a + (q_len q * WB c + r) - 1) with ((o + r - 1) + (w + q_len q) * WB c) by lia.
      rewrite Nat.div_add by lia. destruct (Nat.ltb_spec (WB c - o) r).
      - assert ((o + r - 1) / WB c = 1); [|lia]. symmetry. apply Nat.div_unique with (r := o + r - 1 - WB c); lia.
      - rewrite Nat.div_small by lia. lia. }
    destruct (Nat.eqb_spec o 0) as [Eo|Eo].
    - replace (WB c - o <? r) with false by (symmetry; apply Nat.ltb_ge; lia). rewrite andb_false_r. cbn [andb]. lia.
    - assert (always_aligned c = false) as ->.
      { unfold always_aligned. apply Nat.eqb_neq. intros E. apply Eo. unfold o. rewrite <- E. exact Ha. }
      cbn [negb andb]. destruct (WB c - o <? r); lia.
  Qed.

  Notation N := (2 ^ LW c).

  (** the beats of one burst are the next words *)
  Lemma beats_words q m l :
    beats (WB c) (AW c) (addr_align c (wrap (AW c) (q_addr q + m * WB c)), l) =
    map (fun k => ((q_addr q / WB c + k) * WB c) mod 2 ^ AW c) (seq m (l + 1)).
  Proof.
    destruct wb_bits as [Ew _]. destruct wb_div as [d Hd].
    unfold beats. cbn [fst snd]. rewrite (seq_shift_add m (l + 1)), map_map. apply map_ext. intros k.
    unfold addr_align. rewrite Ew. unfold wrap. rewrite Hd.
    assert (d <> 0) as Hd0 by (intros ->; pose proof (pow2_pos (AW c)); lia).
    set (a := q_addr q + m * WB c).
    assert (a mod (WB c * d) / WB c = (a / WB c) mod d) as E.
    { rewrite Nat.mod_mul_r by lia. rewrite (Nat.mul_comm (WB c) (_ mod d)), Nat.div_add by lia.
      rewrite (Nat.div_small (a mod WB c)) by (apply Nat.mod_upper_bound; lia). reflexivity. }
    rewrite E.
    assert (a / WB c = q_addr q / WB c + m) as E' by (unfold a; rewrite Nat.div_add by lia; reflexivity).
    rewrite E'. set (b := q_addr q / WB c + m).
    replace ((q_addr q / WB c + (m + k)) * WB c) with (WB c * (b + k)) by (unfold b; lia).
    replace (b mod d * WB c + k * WB c) with (WB c * (b mod d + k)) by lia.
    rewrite !Nat.mul_mod_distr_l by lia. f_equal. rewrite Nat.add_mod_idemp_l by lia. reflexivity.
  Qed.
End Arith.

Section Ah.
  Variables (c : dpcfg) (xl : nat).
  Hypotheses (Hc : dp_cfg_ok c) (HW : 2 <= WB c).
  Notation N := (2 ^ LW c).
  Notation words q := (fun k => ((q_addr q / WB c + k) * WB c) mod 2 ^ AW c).

  (** [m] bursts of the current request are issued *)
  Record Part (q : dreq) (m : nat) (rest : list (nat * nat) * list (dreq * bool)) : Prop := {
    pt_words : flat_map (beats (WB c) (AW c)) (fst rest) = map (words q) (seq 0 (m * N));
    pt_len : Forall (fun b => snd b + 1 = N) (fst rest);
    pt_marks : snd rest = repeat (q, false) m /\ length (fst rest) = m }.
  Lemma part0 q : Part q 0 ([], []).
  Proof. constructor; try constructor; reflexivity. Qed.

  Record Cur (s : ah_st) (t : list ah_cyc) (rest : list (nat * nat) * list (dreq * bool)) : Prop := {
    cu_idle : a_pend s = false -> rest = ([], []);
    cu_pend : a_pend s = true -> exists t1 x m, t = t1 ++ [x] /\ ai_vld (fst x) = true /\ ao_rd (snd x) = false /\
       0 < m /\ m * N + 1 + a_remain s = req_words (WB c) (ai_req (fst x)) /\
       a_addr s = wrap (AW c) (q_addr (ai_req (fst x)) + m * N * WB c) /\ Part (ai_req (fst x)) m rest }.
  Definition AInv (s : ah_st) (t : list ah_cyc) : Prop :=
    exists gs rest, Forall2 (fun q g => served c q (fst g) (snd g)) (flat_map ah_taken t) gs /\
      flat_map ah_burst t = flat_map fst gs ++ fst rest /\ flat_map ah_info t = flat_map snd gs ++ snd rest /\ Cur s t rest.

  Lemma kept_last t1 x y : req_kept ((t1 ++ [x]) ++ [y]) -> ai_vld (fst x) = true -> ao_rd (snd x) = false ->
    ai_vld (fst y) = true /\ ai_req (fst y) = ai_req (fst x).
  Proof. intros H. apply (H t1 x y []). rewrite <- app_assoc. reflexivity. Qed.
  Lemma kept_pre t y : req_kept (t ++ [y]) -> req_kept t.
  Proof. intros H t1 x z t2 E. apply (H t1 x z (t2 ++ [y])). rewrite E, <- app_assoc. reflexivity. Qed.

  Lemma part_more q m rest a : Part q m rest -> a = addr_align c (wrap (AW c) (q_addr q + m * N * WB c)) ->
    Part q (m + 1) (fst rest ++ [(a, len_max c)], snd rest ++ [(q, false)]).
  Proof.
    intros [P1 P2 [P3 P4]] ->. pose proof (N_len c) as HN. pose proof (pow2_pos (LW c)) as HN0. constructor; cbn [fst snd].
    - rewrite flat_map_app, P1. cbn [flat_map]. rewrite app_nil_r, (beats_words c Hc HW), HN.
      replace ((m + 1) * N) with (m * N + N) by lia. rewrite seq_app, map_app. reflexivity.
    - apply Forall_app. split; [exact P2|]. constructor; [cbn; lia|constructor].
    - split; [rewrite P3, repeat_app; reflexivity|rewrite app_length, P4; reflexivity].
  Qed.
  Lemma part_end q m rest a l : Part q m rest -> a = addr_align c (wrap (AW c) (q_addr q + m * N * WB c)) ->
    l < N -> m * N + 1 + l = req_words (WB c) q ->
    served c q (fst rest ++ [(a, l)]) (snd rest ++ [(q, true)]).
  Proof.
    intros [P1 P2 [P3 P4]] -> Hl Hw. constructor.
    - rewrite flat_map_app, P1. cbn [flat_map]. rewrite app_nil_r, (beats_words c Hc HW).
      unfold word_addrs. rewrite <- Hw. replace (m * N + 1 + l) with (m * N + (l + 1)) by lia. rewrite (seq_app (m * N) (l + 1)), map_app. reflexivity.
    - apply Forall_app. split; [|constructor; [cbn; lia|constructor]]. eapply Forall_impl; [|exact P2]. intros b Hb. cbn in Hb |- *. lia.
    - rewrite removelast_last. exact P2.
    - split; [|destruct (fst rest); discriminate]. rewrite app_length, P4, P3. cbn [length].
      replace (m + 1 - 1) with m by lia. reflexivity.
  Qed.

  Lemma split_step s t (i : ah_in) :
    (ai_vld i = true -> dreq_ok c (ai_req i) /\ chunk_aligned c (ai_req i)) ->
    AInv s t -> req_kept (t ++ [(i, snd (ah_split c xl s i))]) ->
    AInv (fst (ah_split c xl s i)) (t ++ [(i, snd (ah_split c xl s i))]).
  Proof.
    intros Hok [gs [rest [Hs [Hb [Hi [C1 C2]]]]]] Hk.
    pose proof (N_len c) as HN. pose proof (pow2_pos (LW c)) as HN0.
    set (q := ai_req i) in *.
    (* the request and the part of it already served *)
    assert (exists m, (ai_vld i = true -> m * N + 1 + (if a_pend s then a_remain s else new_len c q) = req_words (WB c) q /\
              addr_align c (if a_pend s then a_addr s else q_addr q) = addr_align c (wrap (AW c) (q_addr q + m * N * WB c)) /\
              wrap (AW c) ((if a_pend s then a_addr s else q_addr q) + addr_step c) = wrap (AW c) (q_addr q + (m + 1) * N * WB c)) /\
              Part q m rest /\ (a_pend s = true -> ai_vld i = true)) as [m [Hm [HP Hpv]]].
    { assert (addr_step c = N * WB c) as Est by (unfold addr_step; rewrite HN, (proj1 (wb_bits c Hc HW)); reflexivity).
      destruct (a_pend s) eqn:Ep.
      - destruct (C2 eq_refl) as [t1 [x [m [-> [V [R [M0 [M1 [M2 M3]]]]]]]]].
        destruct (kept_last _ _ _ Hk V R) as [V' Eq]. cbn [fst] in V', Eq. fold q in Eq. rewrite Eq in *.
        exists m. split; [intros _|split; [exact M3|intros _; exact V']]. split; [exact M1|]. rewrite M2. split; [reflexivity|].
        unfold wrap. rewrite Nat.add_mod_idemp_l by (pose proof (pow2_pos (AW c)); lia). f_equal. rewrite Est. lia.
      - exists 0. rewrite (C1 eq_refl). split; [intros V|split; [apply part0|discriminate]].
        destruct (Hok V) as [Hq _]. split; [rewrite <- (new_len_words c Hc HW q Hq); lia|].
        rewrite Est. change (0 * N * WB c) with 0. rewrite Nat.add_0_r. unfold wrap at 1. rewrite Nat.mod_small by apply Hq. split; [reflexivity|].
        f_equal. lia. }
    unfold ah_split. cbv zeta. fold q.
    destruct (ai_vld i) eqn:V.
    - destruct (Hm eq_refl) as [M1 [M2 M3]]. destruct (Hok eq_refl) as [Hq Hch]. rewrite (no_al_err c Hc HW q Hq Hch).
      set (rl := if a_pend s then a_remain s else new_len c q) in *. cbn [andb orb negb].
      destruct (ai_rdy i && ai_irdy i && negb (ai_err i)) eqn:Mv; cbn [fst snd].
      + apply andb_prop in Mv. destruct Mv as [Mv E3]. apply andb_prop in Mv. destruct Mv as [E1 E2]. rewrite E1, E2, E3. cbn [andb].
        destruct (Nat.ltb_spec (len_max c) rl) as [L|L]; cbn [negb andb orb].
        * (* another burst follows *)
          exists gs, (fst rest ++ [(addr_align c (if a_pend s then a_addr s else q_addr q), len_max c)], snd rest ++ [(q, false)]).
          rewrite !flat_map_app. cbn [flat_map]. unfold ah_taken at 2, ah_burst at 2, ah_info at 2.
          cbn [fst snd ao_rd ao_vld ao_ivld ao_addr ao_len ao_last]. rewrite V, E1, E2. cbn [andb app]. rewrite !app_nil_r.
          rewrite Hb, Hi, <- !app_assoc. split; [exact Hs|split; [reflexivity|split; [reflexivity|]]].
          constructor; cbn [a_pend]; [discriminate|]. intros _.
          eexists t, _, (m + 1). split; [reflexivity|].
          cbn [fst snd ao_rd a_remain a_addr]. fold q.
          split; [exact V|split; [reflexivity|split; [lia|split; [lia|split; [destruct (a_pend s); exact M3|apply part_more; assumption]]]]].
        * (* the last burst *)
          exists (gs ++ [(fst rest ++ [(addr_align c (if a_pend s then a_addr s else q_addr q), rl)], snd rest ++ [(q, true)])]), ([], []).
          rewrite !flat_map_app. cbn [flat_map]. unfold ah_taken at 2, ah_burst at 2, ah_info at 2.
          cbn [fst snd ao_rd ao_vld ao_ivld ao_addr ao_len ao_last]. rewrite V, E1, E2. cbn [andb app]. rewrite !app_nil_r.
          rewrite Hb, Hi, <- !app_assoc. unfold wrap at 1. rewrite (Nat.mod_small rl) by lia.
          split; [apply Forall2_app; [exact Hs|]|split; [reflexivity|split; [reflexivity|]]].
          -- constructor; [|constructor]. cbn [fst snd]. fold q. apply (part_end q m); [exact HP|exact M2|lia|lia].
          -- constructor; cbn [a_pend]; [reflexivity|discriminate].
      + (* nothing moves *)
        set (o := mk_aho _ _ _ _ _ _).
        assert (ah_burst (i, o) = [] /\ ah_info (i, o) = [] /\ ah_taken (i, o) = []) as [O1 [O2 O3]].
        { unfold ah_burst, ah_info, ah_taken, o. cbn [fst snd ao_rd ao_vld ao_ivld]. rewrite V.
          destruct (ai_rdy i), (ai_irdy i), (ai_err i); cbn in Mv |- *; try discriminate; rewrite ?andb_false_r; repeat split. }
        exists gs, rest. rewrite !flat_map_app. cbn [flat_map]. rewrite O1, O2, O3, !app_nil_r.
        split; [exact Hs|split; [exact Hb|split; [exact Hi|]]].
        assert (ai_rdy i && ai_irdy i && negb (a_pend s) && negb (ai_err i) = false) as Erd by (destruct (ai_rdy i), (ai_irdy i), (a_pend s), (ai_err i); cbn in *; congruence).
        constructor; cbn [a_pend]; [exact C1|]. intros Ep. rewrite Ep in *.
        destruct (C2 eq_refl) as [t1 [x [m' [-> [V' [R [N0 [N1 [N2 N3]]]]]]]]].
        destruct (kept_last _ _ _ Hk V' R) as [_ Eq]. cbn [fst] in Eq. fold q in Eq. rewrite <- Eq in *.
        exists (t1 ++ [x]), (i, o), m'. cbn [fst snd]. fold q. unfold o. cbn [ao_rd a_remain a_addr].
        assert ((true && negb true || true) && (ai_rdy i && true) && (ai_irdy i && true) && negb (ai_err i) = false) as Eack
          by (cbn [negb andb orb]; rewrite !andb_true_r; exact Mv).
        split; [reflexivity|split; [exact V|split; [|split; [exact N0|split; [exact N1|split; [|exact N3]]]]]].
        * rewrite ?Ep. cbn [negb] in Erd |- *. exact Erd.
        * rewrite ?Ep. cbn [negb andb orb] in Eack |- *. rewrite ?andb_true_r in Eack |- *. rewrite Eack. exact N2.
    - (* no request *)
      assert (a_pend s = false) as Ep by (destruct (a_pend s); [discriminate (Hpv eq_refl)|reflexivity]). rewrite Ep in *.
      cbn [andb orb negb fst snd].
      exists gs, rest. rewrite !flat_map_app. cbn [flat_map]. unfold ah_taken at 2, ah_burst at 2, ah_info at 2.
      cbn [fst snd ao_rd ao_vld ao_ivld]. rewrite V, ?andb_false_r. cbn [andb]. rewrite !app_nil_r.
      split; [exact Hs|split; [exact Hb|split; [exact Hi|]]]. constructor; cbn [a_pend]; [exact C1|discriminate].
  Qed.

  Lemma direct_step s t (i : ah_in) :
    (ai_vld i = true -> dreq_ok c (ai_req i) /\ chunk_aligned c (ai_req i) /\
       req_words (WB c) (ai_req i) <= N /\ (0 < MAXLEN c \/ req_words (WB c) (ai_req i) = 1)) ->
    a_pend s = false -> AInv s t ->
    AInv (fst (ah_direct c s i)) (t ++ [(i, snd (ah_direct c s i))]).
  Proof.
    intros Hok Ep [gs [rest [Hs [Hb [Hi [C1 C2]]]]]]. rewrite (C1 Ep) in *. cbn [fst snd] in Hb, Hi. rewrite app_nil_r in Hb, Hi.
    set (q := ai_req i) in *. unfold ah_direct. cbv zeta. fold q. cbn [fst snd]. set (o := mk_aho _ _ _ _ _ _).
    destruct (ai_vld i && ai_rdy i && ai_irdy i && negb (ai_err i)) eqn:Mv.
    - apply andb_prop in Mv. destruct Mv as [Mv E3]. apply andb_prop in Mv. destruct Mv as [Mv E2]. apply andb_prop in Mv. destruct Mv as [V E1].
      destruct (Hok V) as [Hq [Hch [Hw Hz]]].
      exists (gs ++ [([(addr_align c (q_addr q), new_len c q)], [(q, true)])]), ([], []).
      pose proof (new_len_words c Hc HW q Hq) as Hn.
      assert ((if 0 <? MAXLEN c then wrap (LW c) (new_len c q) else 0) = new_len c q) as El.
      { destruct (Nat.ltb_spec 0 (MAXLEN c)); [unfold wrap; apply Nat.mod_small; lia|lia]. }
      assert (ah_taken (i, o) = [q] /\ ah_burst (i, o) = [(addr_align c (q_addr q), new_len c q)] /\ ah_info (i, o) = [(q, true)]) as [O1 [O2 O3]].
      { unfold ah_taken, ah_burst, ah_info, o. cbn [fst snd ao_rd ao_vld ao_ivld ao_addr ao_len ao_last].
        rewrite V, E1, E2, E3, (no_al_err c Hc HW q Hq Hch), El. cbn [andb negb]. fold q. repeat split. }
      rewrite !flat_map_app. cbn [flat_map fst snd]. rewrite !app_nil_r, Hb, Hi, O1, O2, O3.
      split; [apply Forall2_app; [exact Hs|]|split; [reflexivity|split; [reflexivity|]]].
      + constructor; [|constructor]. cbn [fst snd].
        apply (part_end q 0 ([], []) _ (new_len c q) (part0 q)); [|lia|lia].
        cbn [Nat.mul]. rewrite Nat.add_0_r. unfold wrap. rewrite Nat.mod_small by apply Hq. reflexivity.
      + constructor; [reflexivity|]. rewrite Ep. discriminate.
    - exists gs, ([], []).
      assert (ah_burst (i, o) = [] /\ ah_info (i, o) = [] /\ ah_taken (i, o) = []) as [O1 [O2 O3]].
      { unfold ah_burst, ah_info, ah_taken, o. cbn [fst snd ao_rd ao_vld ao_ivld].
        destruct (ai_vld i), (ai_rdy i), (ai_irdy i), (ai_err i); cbn in Mv |- *; try discriminate; rewrite ?andb_false_r; repeat split. }
      rewrite !flat_map_app. cbn [flat_map fst snd]. rewrite O1, O2, O3, !app_nil_r.
      split; [exact Hs|split; [exact Hb|split; [exact Hi|]]]. constructor; [reflexivity|]. rewrite Ep. discriminate.
  Qed.

  Lemma split_long : use_split c = true <-> long_requests c.
  Proof.
    unfold use_split, long_requests. destruct Hc as [[kw [Ew _]] [[ka Ea] [Hle _]]].
    assert (0 < AL c) by (rewrite Ea; apply pow2_pos).
    assert (exists n, WB c = n * AL c) as [n En].
    { exists (2 ^ (kw - ka)). rewrite Ew, Ea, <- Nat.pow_add_r. f_equal. rewrite Ew, Ea in Hle. apply Nat.pow_le_mono_r_iff in Hle; lia. }
    assert (WB c / AL c = n) as Ed by (rewrite En; apply Nat.div_mul; lia). rewrite Ed.
    destruct (Nat.ltb_spec (2 ^ LW c) (MAXLEN c + 1)); [tauto|]. destruct (Nat.eqb_spec (MAXLEN c + 1) (2 ^ LW c)); [|split; [discriminate|lia]].
    rewrite orb_true_iff, andb_true_iff, negb_true_iff, Nat.eqb_neq, Nat.leb_le, existsb_exists. split.
    - intros [Q|[k [Hk Q]]]; right; (split; [assumption|]); [left; exact Q|right]. apply in_seq in Hk. apply Nat.ltb_lt in Q. exists k. split; [nia|exact Q].
    - intros [Q|[_ [Q|[k [Hk Q]]]]]; [lia|left; exact Q|right]. exists k. split; [apply in_seq; nia|apply Nat.ltb_lt, Q].
  Qed.

  Lemma ah_run a0 l0 (is : list ah_in) :
    Forall (fun i => ai_vld i = true -> dreq_ok c (ai_req i) /\ chunk_aligned c (ai_req i) /\ fits c (ai_req i)) is ->
    req_kept (trace (ah_step c xl) (ah_init a0 l0) is) ->
    AInv (final (ah_step c xl) (ah_init a0 l0) is) (trace (ah_step c xl) (ah_init a0 l0) is).
  Proof.
    assert (AInv (ah_init a0 l0) []) as H0.
    { exists [], ([], []). repeat split; try constructor; try reflexivity; discriminate. }
    unfold ah_step, fits. destruct (use_split c) eqn:Eu.
    - induction is as [|i is IH] using rev_ind; intros H Hk; [exact H0|].
      apply Forall_app in H. destruct H as [H1 H2]. inversion_clear H2 as [|? ? H3 _]. rewrite final_snoc, trace_snoc in *.
      apply split_step; [intros V; split; apply (H3 V)| |exact Hk]. apply (IH H1). exact (kept_pre _ _ Hk).
    - intros H _. enough (a_pend (final (ah_direct c) (ah_init a0 l0) is) = false /\ AInv (final (ah_direct c) (ah_init a0 l0) is) (trace (ah_direct c) (ah_init a0 l0) is)) by tauto.
      revert H. induction is as [|i is IH] using rev_ind; intros H; [split; [reflexivity|exact H0]|].
      apply Forall_app in H. destruct H as [H1 H2]. inversion_clear H2 as [|? ? H3 _]. rewrite final_snoc, trace_snoc.
      destruct (IH H1) as [Ip Ii]. split; [exact Ip|]. apply direct_step; [|exact Ip|exact Ii].
      intros V. destruct (H3 V) as [A1 [A2 [A3|A3]]]; [apply split_long in A3; congruence|]. tauto.
  Qed.

  Lemma inv_law s t : AInv s t -> ah_law c t.
  Proof.
    intros [gs [rest [Hs [Hb [Hi [C1 C2]]]]]]. exists gs, rest. repeat split; try assumption.
    destruct (a_pend s); [right|left; apply C1; reflexivity].
    destruct (C2 eq_refl) as [t1 [x [m [-> [V [R [N0 [N1 [N2 [P1 P2 [P3 P4]]]]]]]]]]].
    exists t1, x. repeat split; try assumption.
    - pose proof (pow2_pos (LW c)) as HN0. exists (m * N). split; [|nia].
      unfold word_addrs. rewrite P1, firstn_map. f_equal. rewrite <- N1, <- Nat.add_assoc, seq_app, firstn_app, seq_length, Nat.sub_diag, firstn_O, app_nil_r, firstn_all2 by (rewrite seq_length; lia). reflexivity.
    - rewrite P4. exact P3.
  Qed.
End Ah.
