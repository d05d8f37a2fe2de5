From Verif Require Import Base BaseFacts FifoModel FifoProofs HsFifoProofs SimRamProofs AxisMiscProofs DpModel DpSpec DpProofs DpRModel DpRSpec DpRProofs DpWModel DpWSpec.

Notation trues l := (length (filter (fun b : bool => b) l)).
Definition pre {A} (a b : list A) : Prop := exists more, b = a ++ more.
Lemma pre_refl {A} (a : list A) : pre a a. Proof. exists []. rewrite app_nil_r. reflexivity. Qed.
Lemma pre_app {A} (a b : list A) : pre a (a ++ b). Proof. exists b. reflexivity. Qed.
Lemma pre_trans {A} (a b d : list A) : pre a b -> pre b d -> pre a d.
Proof. intros [m ->] [n ->]. exists (m ++ n). rewrite app_assoc. reflexivity. Qed.
Lemma pre_flat {A C} (f : A -> list C) a b : pre a b -> pre (flat_map f a) (flat_map f b).
Proof. intros [m ->]. rewrite flat_map_app. apply pre_app. Qed.
Lemma pre_cong {A} (x a b : list A) : pre a b -> pre (x ++ a) (x ++ b).
Proof. intros [m ->]. exists m. rewrite app_assoc. reflexivity. Qed.
Lemma pre_len {A} (a b : list A) : pre a b -> length a <= length b.
Proof. intros [m ->]. rewrite app_length. lia. Qed.
Lemma pre_firstn {A} (a b : list A) : pre a b -> a = firstn (length a) b.
Proof. intros [m ->]. rewrite firstn_app, Nat.sub_diag, firstn_O, app_nil_r, firstn_all. reflexivity. Qed.
Lemma pre_le {A} (a b d : list A) : pre a d -> pre b d -> length a <= length b -> pre a b.
Proof.
  intros Ha [n ->] L. exists (skipn (length a) b). rewrite (pre_firstn _ _ Ha) at 1. rewrite firstn_app_le by exact L.
  rewrite firstn_skipn. reflexivity.
Qed.
Lemma pre_nth {A} (a b : list A) n x : pre a b -> nth_error a n = Some x -> nth_error b n = Some x.
Proof. intros [m ->] H. rewrite nth_error_app1; [exact H|]. apply nth_error_Some. congruence. Qed.
Lemma trues_app a b : trues (a ++ b) = trues a + trues b.
Proof. rewrite filter_app, app_length. reflexivity. Qed.
Lemma trues_pre a b : pre a b -> trues a <= trues b.
Proof. intros [m ->]. rewrite trues_app. lia. Qed.
Lemma trues_rep n : trues (repeat false n) = 0. Proof. induction n; [reflexivity|assumption]. Qed.
Lemma firstn_seq b n : b <= n -> firstn b (seq 0 n) = seq 0 b.
Proof. intros H. replace n with (b + (n - b)) by lia. rewrite seq_app, firstn_app, seq_length, Nat.sub_diag, firstn_O, app_nil_r, firstn_all2 by (rewrite seq_length; lia). reflexivity. Qed.

Lemma nth_error_seq' n b : b < n -> nth_error (seq 0 n) b = Some b.
Proof. intros H. rewrite <- (firstn_skipn b (seq 0 n)), firstn_seq by lia. replace n with (b + (n - b)) at 1 by lia.
  rewrite nth_error_app2 by (rewrite seq_length; lia). rewrite seq_length, Nat.sub_diag, seq_app, skipn_app, seq_length, Nat.sub_diag, skipn_all2 by (rewrite seq_length; lia).
  cbn [app skipn]. destruct (n - b) eqn:E; [lia|reflexivity]. Qed.

(** arithmetic of the split *)
Lemma mod_succ N b : N <> 0 -> ((b + 1) mod N =? 0) = (b mod N =? N - 1).
Proof.
  intros H. pose proof (Nat.mod_upper_bound b N H) as U. rewrite <- (Nat.add_mod_idemp_l b 1 N) by exact H.
  destruct (Nat.eqb_spec (b mod N) (N - 1)) as [E|E].
  - rewrite E. replace (N - 1 + 1) with N by lia. rewrite Nat.mod_same by exact H. reflexivity.
  - rewrite Nat.mod_small by lia. apply Nat.eqb_neq. lia.
Qed.
Lemma mod_succ_small N b : N <> 0 -> b mod N <> N - 1 -> (b + 1) mod N = b mod N + 1.
Proof. intros H E. pose proof (Nat.mod_upper_bound b N H). rewrite <- Nat.add_mod_idemp_l by exact H. apply Nat.mod_small. lia. Qed.
Lemma div_succ N b : N <> 0 -> (b + 1) / N = b / N + (if (b + 1) mod N =? 0 then 1 else 0).
Proof.
  intros H. rewrite (mod_succ N b H). pose proof (Nat.div_mod b N H) as E. pose proof (Nat.mod_upper_bound b N H) as U.
  destruct (Nat.eqb_spec (b mod N) (N - 1)) as [Eb|Eb].
  - symmetry. apply (Nat.div_unique _ _ _ 0); nia.
  - symmetry. apply (Nat.div_unique _ _ _ (b mod N + 1)); nia.
Qed.
Lemma trues_mod N b : N <> 0 -> trues (map (fun k => (k + 1) mod N =? 0) (seq 0 b)) = b / N.
Proof.
  intros H. induction b as [|b IH]; [cbn; rewrite Nat.div_0_l by exact H; reflexivity|].
  rewrite seq_S, map_app, trues_app, IH. cbn [map Nat.add]. replace (S b) with (b + 1) by lia. rewrite div_succ by exact H. f_equal.
  destruct ((b + 1) mod N =? 0); reflexivity.
Qed.

Section Plan.
  Variable c : dpcfg.
  Notation N := (2 ^ LW c).
  Notation nw q := (req_words (WB c) q).
  Definition plan_lasts (q : dreq) : list bool := map (fun b => ((b + 1) mod N =? 0) || (b + 1 =? nw q)) (seq 0 (nw q)).
  Definition plan_infos (q : dreq) : list (dreq * bool) := repeat (q, false) ((nw q - 1) / N) ++ [(q, true)].
  Lemma nw_pos q : 0 < nw q. Proof. unfold req_words. lia. Qed.
  Lemma N_pos : N <> 0. Proof. pose proof (pow2_pos (LW c)). lia. Qed.

  Lemma full_lasts bs : Forall (fun b => snd b + 1 = N) bs ->
    flat_map burst_lasts bs = map (fun b => (b + 1) mod N =? 0) (seq 0 (length bs * N)).
  Proof.
    pose proof N_pos as HN. induction bs as [|b bs IH] using rev_ind; intros H; [reflexivity|].
    apply Forall_app in H. destruct H as [H1 H2]. inversion_clear H2 as [|? ? H3 _].
    rewrite flat_map_app, (IH H1), app_length. cbn [flat_map length]. rewrite app_nil_r.
    replace ((length bs + 1) * N) with (length bs * N + N) by lia. rewrite seq_app, map_app. f_equal. cbn [Nat.add].
    rewrite (seq_shift_add (length bs * N)), map_map. unfold burst_lasts. rewrite <- H3, seq_app, map_app. cbn [seq map Nat.add].
    f_equal.
    - clear IH. rewrite H3.
      assert (forall k, k <= snd b -> repeat false k = map (fun x => (length bs * N + x + 1) mod N =? 0) (seq 0 k)) as G; [|apply G; lia].
      induction k as [|k IHk]; intros L; [reflexivity|]. rewrite seq_S, map_app, <- IHk by lia. cbn [Nat.add map].
      replace (length bs * N + k + 1) with (k + 1 + length bs * N) by lia. rewrite Nat.mod_add, Nat.mod_small by lia.
      replace (k + 1 =? 0) with false by (symmetry; apply Nat.eqb_neq; lia). rewrite <- repeat_cons. reflexivity.
    - rewrite H3. f_equal. symmetry. apply Nat.eqb_eq. rewrite <- Nat.add_assoc, H3.
      replace (length bs * N + N) with (0 + (length bs + 1) * N) by lia. rewrite Nat.mod_add by exact HN. apply Nat.mod_0_l. exact HN.
  Qed.
  Lemma plan_len q : length (plan_lasts q) = nw q. Proof. unfold plan_lasts. rewrite map_length, seq_length. reflexivity. Qed.
  Lemma plan_firstn q b : b < nw q -> firstn b (plan_lasts q) = map (fun k => (k + 1) mod N =? 0) (seq 0 b).
  Proof.
    intros H. unfold plan_lasts. rewrite firstn_map, firstn_seq by lia. apply map_ext_in. intros k Hk. apply in_seq in Hk.
    replace (k + 1 =? nw q) with false by (symmetry; apply Nat.eqb_neq; lia). apply orb_false_r.
  Qed.
  Lemma plan_nth q b : b < nw q -> nth_error (plan_lasts q) b = Some (((b + 1) mod N =? 0) || (b + 1 =? nw q)).
  Proof. intros H. unfold plan_lasts. rewrite nth_error_map, nth_error_seq' by exact H. reflexivity. Qed.
  Lemma trues_part q b : b < nw q -> trues (firstn b (plan_lasts q)) = b / N.
  Proof. intros H. rewrite plan_firstn by exact H. apply trues_mod, N_pos. Qed.
  Lemma trues_plan q : trues (plan_lasts q) = length (plan_infos q).
  Proof.
    pose proof (nw_pos q) as H0. rewrite <- (firstn_skipn (nw q - 1) (plan_lasts q)), trues_app, trues_part by lia.
    unfold plan_infos. rewrite app_length, repeat_length. f_equal.
    unfold plan_lasts. rewrite skipn_map. replace (skipn (nw q - 1) (seq 0 (nw q))) with [nw q - 1].
    - cbn [map]. replace (nw q - 1 + 1 =? nw q) with true by (symmetry; apply Nat.eqb_eq; lia). rewrite orb_true_r. reflexivity.
    - replace (seq 0 (nw q)) with (seq 0 (nw q - 1 + 1)) by (f_equal; lia). rewrite seq_app, skipn_app, seq_length, Nat.sub_diag, skipn_all2 by (rewrite seq_length; lia). reflexivity.
  Qed.

  Lemma served_plan q bs ms : served c q bs ms ->
    flat_map burst_lasts bs = plan_lasts q /\ ms = plan_infos q /\ flat_map (beats (WB c) (AW c)) bs = word_addrs (WB c) (AW c) q /\ length bs = length ms.
  Proof.
    intros [S1 S2 S3 [S4 S5]]. pose proof N_pos as HN. destruct (exists_last S5) as [bs' [[a l] ->]]. rewrite removelast_last in S3.
    apply Forall_app in S2. destruct S2 as [_ S2]. inversion_clear S2 as [|? ? S2' _]. cbn [snd] in S2'.
    assert (nw q = length bs' * N + (l + 1)) as E.
    { rewrite <- (words_len c q), <- S1, beats_len, flat_map_app, app_length, (full_lasts bs' S3), map_length, seq_length. cbn [flat_map]. unfold burst_lasts.
      rewrite app_nil_r, app_length, repeat_length. reflexivity. }
    assert ((nw q - 1) / N = length bs') as Ed by (symmetry; apply (Nat.div_unique _ _ _ l); [exact S2'|lia]).
    rewrite app_length in *. cbn [length] in *. split; [|split; [|split; [exact S1|]]].
    - rewrite flat_map_app, (full_lasts bs' S3). cbn [flat_map]. rewrite app_nil_r. unfold burst_lasts. cbn [snd].
      pose proof (plan_firstn q (nw q - 1)) as Hp. pose proof (nw_pos q).
      assert (plan_lasts q = firstn (nw q - 1) (plan_lasts q) ++ [true]) as ->.
      { rewrite <- (firstn_skipn (nw q - 1) (plan_lasts q)) at 1. f_equal. unfold plan_lasts. rewrite skipn_map.
        replace (seq 0 (nw q)) with (seq 0 (nw q - 1 + 1)) by (f_equal; lia). rewrite seq_app, skipn_app, seq_length, Nat.sub_diag, skipn_all2 by (rewrite seq_length; lia).
        cbn [app skipn seq map Nat.add]. replace (nw q - 1 + 1 =? nw q) with true by (symmetry; apply Nat.eqb_eq; lia). rewrite orb_true_r. reflexivity. }
      rewrite Hp by lia. rewrite app_assoc. f_equal.
      replace (nw q - 1) with (length bs' * N + l) by lia. rewrite seq_app, map_app. f_equal. cbn [Nat.add]. rewrite (seq_shift_add (length bs' * N)), map_map.
      clear -S2' HN. induction l as [|l IH]; [reflexivity|]. rewrite seq_S, map_app, <- IH by lia. cbn [map Nat.add].
      replace (length bs' * N + l + 1) with (l + 1 + length bs' * N) by lia. rewrite Nat.mod_add, Nat.mod_small by lia.
      replace (l + 1 =? 0) with false by (symmetry; apply Nat.eqb_neq; lia). rewrite <- repeat_cons. reflexivity.
    - unfold plan_infos. rewrite Ed, S4. f_equal. f_equal. lia.
    - rewrite S4, app_length, repeat_length. cbn. lia.
  Qed.
  Lemma begun_plan q bs ms : begun c q bs ms ->
    pre (flat_map burst_lasts bs) (plan_lasts q) /\ pre ms (plan_infos q) /\ pre (flat_map (beats (WB c) (AW c)) bs) (word_addrs (WB c) (AW c) q) /\ length bs = length ms.
  Proof.
    intros [[m [S1 S2]] S3 S4]. pose proof N_pos as HN.
    assert (length bs * N < nw q) as L.
    { assert (length (flat_map (beats (WB c) (AW c)) bs) = length bs * N) as E by (rewrite beats_len, (full_lasts bs S3), map_length, seq_length; reflexivity).
      rewrite S1, firstn_length, words_len in E. lia. }
    split; [|split; [|split]].
    - rewrite (full_lasts bs S3), <- (plan_firstn q) by exact L. exists (skipn (length bs * N) (plan_lasts q)). rewrite firstn_skipn. reflexivity.
    - rewrite S4. unfold plan_infos.
      assert (length bs <= (nw q - 1) / N) as Ld by (apply Nat.div_le_lower_bound; [exact HN|lia]).
      replace ((nw q - 1) / N) with (length bs + ((nw q - 1) / N - length bs)) by lia. rewrite repeat_app, <- app_assoc. apply pre_app.
    - rewrite S1. exists (skipn m (word_addrs (WB c) (AW c) q)). rewrite firstn_skipn. reflexivity.
    - rewrite S4, repeat_length. reflexivity.
  Qed.
  Lemma plan_groups qs gs : Forall2 (fun q g => served c q (fst g) (snd g)) qs gs ->
    flat_map burst_lasts (flat_map fst gs) = flat_map plan_lasts qs /\ flat_map snd gs = flat_map plan_infos qs /\
    flat_map (beats (WB c) (AW c)) (flat_map fst gs) = flat_map (word_addrs (WB c) (AW c)) qs /\ length (flat_map fst gs) = length (flat_map snd gs).
  Proof.
    induction 1 as [|q g qs gs Hq _ [I1 [I2 [I3 I4]]]]; [repeat split|]. destruct (served_plan _ _ _ Hq) as [P1 [P2 [P3 P4]]].
    cbn [flat_map]. rewrite !flat_map_app, !app_length, P1, <- P2, P3, I1, I2, I3. split; [reflexivity|]. split; [reflexivity|]. split; [reflexivity|]. rewrite <- I2. lia.
  Qed.

  Hypothesis HW : 2 <= WB c.
  Definition ah_started (t : list ah_cyc) : list dreq :=
    flat_map ah_taken t ++ match rev t with x :: _ => if ai_vld (fst x) && negb (ao_rd (snd x)) then [ai_req (fst x)] else [] | [] => [] end.
  Lemma plan_pre s t qs : AInv c s t -> pre (ah_started t) qs ->
    pre (flat_map burst_lasts (flat_map ah_burst t)) (flat_map plan_lasts qs) /\ pre (flat_map ah_info t) (flat_map plan_infos qs) /\
    pre (flat_map (beats (WB c) (AW c)) (flat_map ah_burst t)) (flat_map (word_addrs (WB c) (AW c)) qs) /\
    length (flat_map ah_burst t) = length (flat_map ah_info t).
  Proof.
    intros Hi Hq. destruct (inv_law c HW s t Hi) as [gs [rest [Hg [Hb [Hn Hr]]]]]. destruct (plan_groups _ _ Hg) as [G1 [G2 [G3 G4]]].
    rewrite Hb, Hn, !flat_map_app, !app_length, G1, G2, G3, G4.
    assert (pre (flat_map burst_lasts (fst rest)) (flat_map plan_lasts (skipn (length (flat_map ah_taken t)) (ah_started t))) /\
      pre (snd rest) (flat_map plan_infos (skipn (length (flat_map ah_taken t)) (ah_started t))) /\
      pre (flat_map (beats (WB c) (AW c)) (fst rest)) (flat_map (word_addrs (WB c) (AW c)) (skipn (length (flat_map ah_taken t)) (ah_started t))) /\
      length (fst rest) = length (snd rest)) as [R1 [R2 [R3 R4]]].
    { unfold ah_started. rewrite skipn_app, Nat.sub_diag, skipn_all. cbn [app skipn].
      destruct Hr as [-> | [t1 [x [-> [V [Rd Bg]]]]]]; [cbn; repeat split; eexists; reflexivity|].
      rewrite rev_app_distr. cbn [rev app]. rewrite V, Rd. cbn [andb negb flat_map]. rewrite !app_nil_r. apply begun_plan. exact Bg. }
    assert (ah_started t = flat_map ah_taken t ++ skipn (length (flat_map ah_taken t)) (ah_started t)) as Es.
    { unfold ah_started. rewrite skipn_app, Nat.sub_diag, skipn_all. reflexivity. }
    set (u := skipn _ _) in *. clearbody u.
    split; [|split; [|split; [|rewrite <- G2; lia]]].
    - eapply pre_trans; [apply pre_cong, R1|]. rewrite <- flat_map_app, <- Es. apply pre_flat, Hq.
    - eapply pre_trans; [apply pre_cong, R2|]. rewrite <- flat_map_app, <- Es. apply pre_flat, Hq.
    - eapply pre_trans; [apply pre_cong, R3|]. rewrite <- flat_map_app, <- Es. apply pre_flat, Hq.
  Qed.
End Plan.

Section Frame.
  Context {B : Type}.
  Variable c : dpcfg.
  Variable xb : B.
  Hypotheses (Hc : dp_cfg_ok c) (HW : 2 <= WB c).
  Notation nw q := (req_words (WB c) q).
  Notation sh q := (q_addr q mod WB c).
  Notation word := (list (B * bool)).
  Definition in_lastw (q : dreq) : nat := if q_rem q =? 0 then WB c else q_rem q.

  Lemma inl_range q : dreq_ok c q -> 1 <= in_lastw q <= WB c.
  Proof. intros [_ [_ [H _]]]. unfold in_lastw. destruct (Nat.eqb_spec (q_rem q) 0); lia. Qed.
  Lemma cross_eq q : dreq_ok c q -> crossing c (q_addr q) (q_rem q) = (WB c - sh q <? in_lastw q).
  Proof.
    intros Hq. pose proof (inl_range q Hq) as HL. destruct (wb_bits c Hc HW) as [Ew _]. unfold crossing, addr_offset. rewrite Ew.
    assert (2 ^ (sbits c + 1) = 2 * WB c) as E2 by (rewrite Nat.add_1_r; cbn [Nat.pow]; lia).
    pose proof (Nat.mod_upper_bound (q_addr q) (WB c) ltac:(lia)) as Ho. set (o := q_addr q mod WB c) in *. clearbody o.
    assert ((if q_rem q =? 0 then wrap (sbits c + 1) (WB c) else wrap (sbits c + 1) (q_rem q)) = in_lastw q) as ->.
    { unfold in_lastw, wrap in *. rewrite E2. destruct (q_rem q =? 0); apply Nat.mod_small; lia. }
    unfold wrap. rewrite E2. replace (WB c + 2 * WB c - o) with (WB c - o + 1 * (2 * WB c)) by lia.
    rewrite Nat.mod_add, Nat.mod_small by lia. reflexivity.
  Qed.
  Lemma al_sh q : dreq_ok c q -> always_aligned c = true -> sh q = 0.
  Proof. intros [_ [_ [_ H]]] E. apply Nat.eqb_eq in E. rewrite <- E. exact H. Qed.
  Lemma nw_eq q : dreq_ok c q -> nw q = q_len q + 1 + (if WB c - sh q <? in_lastw q then 1 else 0).
  Proof.
    intros Hq. pose proof (inl_range q Hq) as HL. rewrite <- (new_len_words c Hc HW q Hq). unfold new_len. rewrite (cross_eq q Hq).
    unfold addr_is_aligned, addr_offset. rewrite (proj1 (wb_bits c Hc HW)).
    destruct (always_aligned c) eqn:Ea.
    - cbn [negb andb]. rewrite (al_sh q Hq Ea). replace (WB c - 0 <? in_lastw q) with false by (symmetry; apply Nat.ltb_ge; lia). lia.
    - cbn [negb andb]. destruct (Nat.eqb_spec (sh q) 0) as [E|E]; cbn [negb andb].
      + rewrite E. replace (WB c - 0 <? in_lastw q) with false by (symmetry; apply Nat.ltb_ge; lia). lia.
      + destruct (WB c - sh q <? in_lastw q); lia.
  Qed.
  Lemma store_eq q : dreq_ok c q -> store_info c q = mk_winfo (sh q) (negb (sh q =? 0) && negb (WB c - sh q <? in_lastw q)).
  Proof.
    intros Hq. unfold store_info. destruct (always_aligned c) eqn:Ea.
    - rewrite (al_sh q Hq Ea). reflexivity.
    - rewrite (cross_eq q Hq). unfold addr_is_aligned, addr_offset. rewrite (proj1 (wb_bits c Hc HW)). reflexivity.
  Qed.
  (** the end of the frame on the bus *)
  Lemma beat_ctrl q b wait lst : dreq_ok c q -> b < nw q -> wait = (b =? q_len q + 1) -> (wait = false -> lst = (b =? q_len q)) ->
    (if negb (sh q =? 0) then wait || (lst && (negb (sh q =? 0) && negb (WB c - sh q <? in_lastw q))) else lst) = (b + 1 =? nw q) /\
    (wait = true -> negb (sh q =? 0) = true /\ (WB c - sh q <? in_lastw q) = true).
  Proof.
    intros Hq Hb Ew El. rewrite (nw_eq q Hq) in *. pose proof (inl_range q Hq) as HL.
    destruct (Nat.eqb_spec (sh q) 0) as [E|E]; cbn [negb].
    - rewrite E in *. replace (WB c - 0 <? in_lastw q) with false in * by (symmetry; apply Nat.ltb_ge; lia).
      assert (wait = false) as Hw by (rewrite Ew; apply Nat.eqb_neq; lia). rewrite Hw in *. split; [|discriminate]. rewrite (El eq_refl).
      destruct (Nat.eqb_spec b (q_len q)), (Nat.eqb_spec (b + 1) (q_len q + 1 + 0)); try reflexivity; lia.
    - cbn [andb]. destruct (WB c - sh q <? in_lastw q); cbn [negb]; rewrite ?andb_false_r, ?andb_true_r.
      + split; [|auto]. rewrite orb_false_r, Ew. destruct (Nat.eqb_spec b (q_len q + 1)), (Nat.eqb_spec (b + 1) (q_len q + 1 + 1)); try reflexivity; lia.
      + assert (wait = false) as Hw by (rewrite Ew; apply Nat.eqb_neq; lia). rewrite Hw in *. split; [|discriminate]. rewrite (El eq_refl). cbn [orb].
        destruct (Nat.eqb_spec b (q_len q)), (Nat.eqb_spec (b + 1) (q_len q + 1 + 0)); try reflexivity; lia.
  Qed.

  (** writes *)
  Notation wat := (@writes_at B c).
  Lemma writes_app a x y : wat a (x ++ y) = wat a x ++ wat (a + length x) y.
  Proof.
    revert a. induction x as [|[d s] x IH]; intros a; [cbn; rewrite Nat.add_0_r; reflexivity|].
    cbn [app writes_at length]. rewrite IH, <- app_assoc. f_equal. f_equal. f_equal. lia.
  Qed.
  Lemma writes_mod a a' x : a mod 2 ^ AW c = a' mod 2 ^ AW c -> wat a x = wat a' x.
  Proof.
    pose proof (pow2_pos (AW c)) as HP. revert a a'. induction x as [|[d s] x IH]; intros a a' H; [reflexivity|]. cbn [writes_at]. rewrite H. f_equal. apply IH.
    rewrite <- (Nat.add_mod_idemp_l a), <- (Nat.add_mod_idemp_l a'), H by lia. reflexivity.
  Qed.
  Lemma writes_off a x : Forall (fun bs : B * bool => snd bs = false) x -> wat a x = [].
  Proof. intros H. revert a. induction H as [|[d s] x E _ IH]; intros a; [reflexivity|]. cbn in *. rewrite E, IH. reflexivity. Qed.

  Lemma slice (ws : list word) b cur k : Forall (fun w => length w = WB c) ws -> nth_error ws b = Some cur -> k <= WB c ->
    firstn (b * WB c + k) (concat ws) = firstn (b * WB c) (concat ws) ++ firstn k cur.
  Proof.
    intros Hl. revert b. induction Hl as [|w ws Hw Hl IH]; intros b E Hk; [destruct b; discriminate|]. destruct b as [|b]; cbn [nth_error concat Nat.mul] in *.
    - injection E as <-. cbn [Nat.add firstn app]. rewrite firstn_app. replace (k - length w) with 0 by lia. rewrite firstn_O, app_nil_r. reflexivity.
    - rewrite <- Nat.add_assoc. rewrite <- Hw at 1 3. rewrite !firstn_app_2, (IH b E Hk), app_assoc. reflexivity.
  Qed.
  Lemma concat_len (ws : list word) : Forall (fun w => length w = WB c) ws -> length (concat ws) = length ws * WB c.
  Proof. induction 1 as [|w ws Hw _ IH]; [reflexivity|]. cbn [concat length Nat.mul]. rewrite app_length, IH, Hw. reflexivity. Qed.

  Definition part_writes (f : dreq * list word) (b : nat) : list (nat * B) := wat (q_addr (fst f)) (firstn (b * WB c - sh (fst f)) (concat (snd f))).
  Lemma beat_writes q ws b wait prev cur : frame_ok c (q, ws) -> b < nw q -> wait = (b =? q_len q + 1) ->
    length prev = WB c -> (0 < b -> nth_error ws (Nat.min (b - 1) (q_len q)) = Some prev) -> (wait = false -> nth_error ws b = Some cur) ->
    part_writes (q, ws) b ++ wat (((q_addr q / WB c + b) * WB c) mod 2 ^ AW c) (apply_shift c xb (sh q) wait (b =? 0) prev cur) = part_writes (q, ws) (b + 1) /\
    (b + 1 = nw q -> part_writes (q, ws) (b + 1) = frame_writes c (q, ws)).
  Proof.
    intros [Fl [Fw [Fs [Hq _]]]] Hb Ewt Hp Hprev Hcur. cbn [fst snd] in *. pose proof (inl_range q Hq) as HL. pose proof (nw_eq q Hq) as En.
    pose proof (pow2_pos (AW c)) as HP.
    pose proof (Nat.div_mod (q_addr q) (WB c) ltac:(lia)) as Hd. pose proof (Nat.mod_upper_bound (q_addr q) (WB c) ltac:(lia)) as Ho.
    unfold part_writes, frame_writes, apply_shift. cbn [fst snd].
    rewrite (writes_mod (((q_addr q / WB c + b) * WB c) mod 2 ^ AW c) ((q_addr q / WB c + b) * WB c)) by (rewrite Nat.mod_mod by lia; reflexivity).
    set (L := in_lastw q) in *. set (a := q_addr q) in *. set (o := a mod WB c) in *. set (w0 := a / WB c) in *. clearbody o w0.
    assert ((w0 + b) * WB c = a + b * WB c - o) as Ea by nia. rewrite Ea.
    pose proof (concat_len ws Fw) as Hcl. rewrite Fl in Hcl.
    destruct (Nat.eqb_spec o 0) as [Eo|Eo].
    - (* aligned *)
      subst o. replace (WB c - 0 <? L) with false in En by (symmetry; apply Nat.ltb_ge; lia).
      assert (wait = false) as -> by (rewrite Ewt; apply Nat.eqb_neq; lia). specialize (Hcur eq_refl).
      rewrite Nat.mul_add_distr_r, Nat.mul_1_l, !Nat.sub_0_r, (slice ws b cur (WB c) Fw Hcur (le_n _)).
      assert (length cur = WB c) as Hcl' by (rewrite Forall_forall in Fw; apply Fw, (nth_error_In _ _ Hcur)).
      split.
      + rewrite writes_app, firstn_length, Nat.min_l by nia. rewrite (firstn_all2 cur) by lia. reflexivity.
      + intros E. rewrite <- (slice ws b cur (WB c) Fw Hcur (le_n _)). rewrite firstn_all2; [reflexivity|nia].
    - set (r := WB c - o) in *.
      destruct wait.
      + (* the remainder of the last word *)
        symmetry in Ewt. apply Nat.eqb_eq in Ewt. rewrite Ewt in *. 
        assert (nth_error ws (q_len q) = Some prev) as Hpr by (rewrite <- Hprev by lia; f_equal; lia).
        assert ((q_len q + 1) * WB c - o = q_len q * WB c + r) as E1 by (unfold r; nia).
        assert (concat ws = firstn (q_len q * WB c + r) (concat ws) ++ skipn r prev) as E2.
        { rewrite <- (firstn_all (concat ws)) at 1. rewrite Hcl. replace ((q_len q + 1) * WB c) with (q_len q * WB c + WB c) by lia.
          rewrite !(slice ws (q_len q) prev _ Fw Hpr) by (unfold r; lia). rewrite <- app_assoc. f_equal. rewrite (firstn_all2 prev) by lia. symmetry. apply firstn_skipn. }
        assert (firstn ((q_len q + 1 + 1) * WB c - o) (concat ws) = concat ws) as E3 by (apply firstn_all2; nia).
        rewrite E1, E3. split; [|reflexivity]. rewrite E2 at 2. rewrite !writes_app. f_equal.
        rewrite firstn_length, Hcl, Nat.min_l by (unfold r; nia).
        rewrite (writes_off _ (repeat (xb, false) r)), app_nil_r; [f_equal; lia|]. apply Forall_forall. intros x Hx. apply repeat_spec in Hx. subst x. reflexivity.
      + specialize (Hcur eq_refl).
        assert (length cur = WB c) as Hcl' by (rewrite Forall_forall in Fw; apply Fw, (nth_error_In _ _ Hcur)).
        assert (b < q_len q + 1) as Hbl by (rewrite <- Fl; apply nth_error_Some; congruence).
        assert ((b + 1) * WB c - o = b * WB c + r) as E1 by (unfold r; nia). rewrite E1.
        rewrite (slice ws b cur r Fw Hcur ltac:(unfold r; lia)). split.
        * destruct (Nat.eqb_spec b 0) as [Eb|Eb].
          -- subst b. cbn [Nat.mul Nat.sub firstn app writes_at]. rewrite Nat.add_0_r, writes_app, writes_off.
             2:{ apply Forall_forall. intros x Hx. apply in_map_iff in Hx. destruct Hx as [y [<- _]]. reflexivity. }
             cbn [app]. f_equal. rewrite map_length, skipn_length. unfold r. lia.
          -- assert (nth_error ws (b - 1) = Some prev) as Hpr by (rewrite <- Hprev by lia; f_equal; lia).
             assert (b * WB c - o = (b - 1) * WB c + r) as E2 by (unfold r; nia).
             assert (firstn (b * WB c) (concat ws) = firstn ((b - 1) * WB c + r) (concat ws) ++ skipn r prev) as E3.
             { replace (b * WB c) with ((b - 1) * WB c + WB c) by nia. rewrite !(slice ws (b - 1) prev _ Fw Hpr) by (unfold r; lia).
               rewrite <- app_assoc. f_equal. rewrite (firstn_all2 prev) by lia. symmetry. apply firstn_skipn. }
             rewrite E2, E3, <- app_assoc, !(writes_app a). f_equal.
             rewrite firstn_length, Hcl, Nat.min_l by (unfold r; nia). apply writes_mod. f_equal. unfold r. nia.
        * intros E. rewrite <- (slice ws b cur r Fw Hcur ltac:(unfold r; lia)).
          destruct (Nat.ltb_spec r L) as [Lr|Lr]; [lia|]. assert (b = q_len q) as -> by lia.
          assert (concat ws = firstn (q_len q * WB c + r) (concat ws) ++ skipn r cur) as E2.
          { rewrite <- (firstn_all (concat ws)) at 1. rewrite Hcl. replace ((q_len q + 1) * WB c) with (q_len q * WB c + WB c) by lia.
            rewrite !(slice ws (q_len q) cur _ Fw Hcur) by (unfold r; lia). rewrite <- app_assoc. f_equal. rewrite (firstn_all2 cur) by lia. symmetry. apply firstn_skipn. }
          rewrite E2 at 2. rewrite writes_app, (writes_off _ (skipn r cur)), app_nil_r; [reflexivity|].
          specialize (Fs _ Hcur). fold (in_lastw q) in Fs. fold L in Fs.
          replace r with ((r - L) + L) by lia. rewrite <- skipn_skipn_add.
          clear -Fs. set (l := skipn L cur) in *. clearbody l. revert Fs. generalize (r - L). induction l as [|x l IH]; intros n Fs; [rewrite skipn_nil; constructor|].
          destruct n; [exact Fs|]. cbn [skipn]. apply IH. inversion Fs; assumption.
  Qed.
End Frame.

Section Run.
  Context {B : Type}.
  Variables (c : dpcfg) (xl : nat) (xb : B).
  Hypotheses (Hc : dp_cfg_ok c) (HW : 2 <= WB c) (HD : 2 <= OVERLAP c).
  Variable fs : list (@frame B).
  Hypothesis Hfs : Forall (frame_ok c) fs.
  Notation step := (wp_step c xl xb).
  Notation cyc := (wp_in B * wp_out B)%type.
  Notation N := (2 ^ LW c).
  Notation nw q := (req_words (WB c) q).
  Notation qs := (map fst fs).
  Notation PA := (flat_map (word_addrs (WB c) (AW c)) qs).

  Definition wsame (x : ah_cyc) (y : cyc) : Prop :=
    ai_vld (fst x) = ui_vld (fst y) /\ ai_req (fst x) = ui_req (fst y) /\ ai_rdy (fst x) = ui_awrdy (fst y) /\
    ao_rd (snd x) = uo_rd (snd y) /\ ao_vld (snd x) = uo_awv (snd y) /\ ao_addr (snd x) = uo_addr (snd y) /\ ao_len (snd x) = uo_len (snd y).
  Lemma wsame_taken ta t : Forall2 wsame ta t -> flat_map ah_taken ta = flat_map wp_taken t.
  Proof. induction 1 as [|x y ta t [E1 [E2 [E3 [E4 _]]]] _ IH]; [reflexivity|]. cbn [flat_map]. rewrite IH. unfold ah_taken, wp_taken. rewrite E1, E2, E4. reflexivity. Qed.
  Lemma wsame_burst ta t : Forall2 wsame ta t -> flat_map ah_burst ta = flat_map wp_burst t.
  Proof. induction 1 as [|x y ta t [E1 [E2 [E3 [E4 [E5 [E6 E7]]]]]] _ IH]; [reflexivity|]. cbn [flat_map]. rewrite IH. unfold ah_burst, wp_burst. rewrite E3, E5, E6, E7. reflexivity. Qed.
  Lemma wsame_kept ta t : Forall2 wsame ta t -> wp_kept t -> req_kept ta.
  Proof.
    intros F K t1 x y t2 ->. apply Forall2_app_inv_l in F. destruct F as [u1 [u [F1 [F2 ->]]]].
    inversion F2 as [|x' p l1 l2 Sx F3]; subst. inversion F3 as [|y' q l3 l4 Sy F4]; subst.
    destruct Sx as [X1 [X2 [_ [X4 _]]]]. destruct Sy as [Y1 [Y2 _]].
    rewrite X1, X4, Y1, Y2, X2. apply (K u1 p q l4). reflexivity.
  Qed.
  Lemma wsame_started ta t : Forall2 wsame ta t -> ah_started ta = wp_started t.
  Proof.
    intros F. unfold ah_started, wp_started. rewrite (wsame_taken _ _ F). f_equal.
    destruct t as [|y t _] using rev_ind; [inversion F; reflexivity|].
    apply Forall2_app_inv_r in F. destruct F as [u1 [u2 [_ [F2 ->]]]]. inversion F2 as [|x ? ? ? Sx F3]; subst. inversion F3; subst.
    rewrite !rev_app_distr. cbn [rev app]. destruct Sx as [X1 [X2 [_ [X4 _]]]]. unfold wp_offered. rewrite X1, X4, X2. reflexivity.
  Qed.

  Notation cons_ t := (trues (map snd (flat_map wp_beat t))).
  Notation nresp t := (length (flat_map wp_resp t)).
  Record WInv (s : wp_st) (t : list cyc) (ta : list ah_cyc) (done todo : list (@frame B)) (b : nat) : Prop := {
    wv_fs : fs = done ++ todo;
    wv_b : match todo with [] => b = 0 | f :: _ => b < nw (fst f) end;
    wv_same : Forall2 wsame ta t;
    wv_ah : AInv2 c (u_ah s) ta;
    wv_lasts : map snd (flat_map wp_beat t) = flat_map (plan_lasts c) (map fst done) ++ match todo with [] => [] | f :: _ => firstn b (plan_lasts c (fst f)) end;
    wv_cons : cons_ t <= length (flat_map ah_info ta);
    wv_wf : HRep (OVERLAP c) (u_wf s) (map (fun n => store_info c (fst n)) (skipn (cons_ t) (flat_map ah_info ta)));
    wv_bf : HRep (OVERLAP c) (u_bf s) (skipn (nresp t) (map snd (firstn (cons_ t) (flat_map ah_info ta))));
    wv_resp : nresp t <= cons_ t;
    wv_err : u_err s = false /\ u_aerr s = false;
    wv_cnt : use_split c = true -> u_cnt s = b mod N;
    wv_wait : u_wait s = match todo with [] => false | f :: _ => b =? q_len (fst f) + 1 end;
    wv_first : u_first s = (b =? 0);
    wv_plen : length (u_prev s) = WB c;
    wv_prev : 0 < b -> match todo with [] => True | f :: _ => nth_error (snd f) (Nat.min (b - 1) (q_len (fst f))) = Some (u_prev s) end;
    wv_words : flat_map wp_dword t = flat_map frame_words done ++ match todo with [] => [] | f :: _ => firstn b (frame_words f) end;
    wv_writes : bus_writes c PA (map fst (flat_map wp_beat t)) = flat_map (frame_writes c) done ++ match todo with [] => [] | f :: _ => part_writes c f b end;
    wv_ack : length (flat_map wp_ack t) = trues (firstn (nresp t) (map snd (flat_map ah_info ta))) }.

  Lemma trues_flat l : trues (flat_map (plan_lasts c) l) = length (flat_map (plan_infos c) l).
  Proof. induction l as [|q l IH]; [reflexivity|]. cbn [flat_map]. rewrite trues_app, app_length, IH, (trues_plan c q). reflexivity. Qed.
  Lemma plan_flat_len l : length (flat_map (plan_lasts c) l) = length (flat_map (word_addrs (WB c) (AW c)) l).
  Proof. induction l as [|q l IH]; [reflexivity|]. cbn [flat_map]. rewrite !app_length, IH, plan_len, words_len. reflexivity. Qed.
  Lemma frame_words_nth (f : @frame B) b w l : length (snd f) = q_len (fst f) + 1 -> nth_error (frame_words f) b = Some (w, l) ->
    nth_error (snd f) b = Some w /\ l = (b =? q_len (fst f)).
  Proof.
    intros Hl H. unfold frame_words in H.
    assert (nth_error (snd f) b = Some w /\ nth_error (repeat false (q_len (fst f)) ++ [true]) b = Some l) as [E1 E2].
    { clear Hl. revert b H. generalize (repeat false (q_len (fst f)) ++ [true]). induction (snd f) as [|x xs IH]; intros ys b H; [destruct b; discriminate|].
      destruct ys as [|y ys]; [destruct b; discriminate|]. destruct b as [|b]; [cbn in *; injection H as <- <-; auto|]. apply (IH ys b H). }
    split; [exact E1|]. assert (b < q_len (fst f) + 1) as L by (rewrite <- Hl; apply nth_error_Some; congruence).
    destruct (Nat.eqb_spec b (q_len (fst f))) as [-> |Hn].
    - rewrite nth_error_app2, repeat_length, Nat.sub_diag in E2 by (rewrite repeat_length; lia). cbn in E2. congruence.
    - rewrite nth_error_app1, nth_error_repeat in E2 by (rewrite ?repeat_length; lia). congruence.
  Qed.
  Lemma frame_words_len (f : @frame B) : length (snd f) = q_len (fst f) + 1 -> length (frame_words f) = q_len (fst f) + 1.
  Proof. intros H. unfold frame_words. rewrite combine_length, H, app_length, repeat_length. cbn. lia. Qed.
  Lemma bus_snoc (addrs : list nat) (ws : list (list (B * bool))) w a : nth_error addrs (length ws) = Some a ->
    bus_writes c addrs (ws ++ [w]) = bus_writes c addrs ws ++ writes_at c a w.
  Proof.
    revert addrs. induction ws as [|v ws IH]; intros [|x xs] H; try discriminate; cbn in H.
    - injection H as ->. unfold bus_writes. destruct xs; cbn; rewrite ?app_nil_r; reflexivity.
    - unfold bus_writes in *. cbn [app combine flat_map]. rewrite (IH xs H), app_assoc. reflexivity.
  Qed.

  Lemma w_step s t ta done todo b (i : wp_in B) :
    WInv s t ta done todo b -> (ui_bv i = true -> ui_okay i = true) -> wp_kept (t ++ [(i, snd (step s i))]) ->
    pre (wp_started (t ++ [(i, snd (step s i))])) qs -> pre (flat_map wp_dword (t ++ [(i, snd (step s i))])) (flat_map frame_words fs) ->
    pre (wp_started t) qs ->
    (uo_v (snd (step s i)) = true -> ui_v i = true) \/ Forall (fun f => q_addr (fst f) mod WB c = 0) fs ->
    exists x done' todo' b', WInv (fst (step s i)) (t ++ [(i, snd (step s i))]) (ta ++ [x]) done' todo' b'.
  Proof.
    intros [Ifs Ib Isame Iah Ilasts Icons Iwf Ibf Iresp [Ie1 Ie2] Icnt Iwait Ifirst Iplen Iprev Iwords Iwrites Iack] Hok Hk Hst Hdw Hst0 Hg.
    pose proof (N_pos c) as HN.
    set (wait := if always_aligned c then false else u_wait s).
    set (info := dreg (hf (u_wf s))) in *. set (brd := negb (f_wwait (hf (u_bf s)))). set (wv := ovld (u_wf s)) in *.
    set (ai := mk_ahi (ui_vld i) (ui_req i) (ui_awrdy i) (negb (f_wwait (hf (u_wf s)))) false).
    destruct (ah_step c xl (u_ah s) ai) as [ah' ao] eqn:Eah.
    set (shifted := negb (always_aligned c) && negb (wf_shift info =? 0)).
    set (in_last := if shifted then wait || (ui_last i && wf_drop info) else ui_last i).
    set (split0 := if always_aligned c && (LW c =? 0) then true else in_last).
    set (do_split := if use_split c then (u_cnt s =? len_max c) || split0 else split0).
    set (fire := (ui_v i || wait) && wv && ui_rdy i && brd).
    set (fire_v := ui_v i && wv && ui_rdy i && brd).
    set (wd := if always_aligned c then ui_w i else apply_shift c xb (wf_shift info) wait (u_first s) (u_prev s) (ui_w i)).
    set (wfi := mk_hin (ao_ivld ao) (store_info c (ui_req i)) ((ui_v i || wait) && ui_rdy i && brd && do_split)).
    set (bfi := mk_hin ((ui_v i || wait) && wv && ui_rdy i && do_split) in_last (ui_bv i && ui_ack i)).
    set (o := mk_wpo (ao_rd ao) (ao_vld ao) (ao_addr ao) (ao_len ao) (wv && ui_rdy i && brd && negb wait) ((ui_v i || wait) && wv && brd && negb false)
                wd do_split (ovld (u_bf s) && ui_ack i) (ui_bv i && ovld (u_bf s) && dreg (hf (u_bf s))) false false).
    set (s' := mk_wp ah' (fst (hsf_step (OVERLAP c) (u_wf s) wfi)) (fst (hsf_step (OVERLAP c) (u_bf s) bfi)) (ui_bv i && negb (ui_okay i))
           (if AL c =? 1 then false else ui_vld i && negb (addr_is_aligned c (q_addr (ui_req i))))
           (if fire && true then (shifted && wait) || ((negb shifted || wf_drop info) && ui_last i) else u_first s)
           (if fire && true && negb wait then ui_w i else u_prev s)
           (if always_aligned c then false else if fire && true then ui_v i && ui_last i && shifted && negb (u_wait s) && negb (wf_drop info) else u_wait s)
           (if use_split c && (fire_v && true) then (if do_split then 0 else u_cnt s + 1) else u_cnt s)).
    assert (step s i = (s', o)) as Es.
    { unfold wp_step. rewrite Ie1, Ie2. cbn [orb]. fold ai. rewrite Eah. reflexivity. }
    rewrite Es in *. cbn [fst snd] in *.
    set (x := (ai, ao) : ah_cyc). exists x.
    assert (Forall2 wsame (ta ++ [x]) (t ++ [(i, o)])) as Hs' by (apply Forall2_app; [exact Isame|constructor; [repeat split|constructor]]).
    (* the request is a legal one *)
    assert (ui_vld i = true -> exists f, In f fs /\ fst f = ui_req i) as Hreq.
    { intros V. destruct Hst as [more Em]. assert (In (ui_req i) qs) as Hin.
      { rewrite Em. unfold wp_started. rewrite rev_app_distr, flat_map_app. cbn [rev app flat_map]. unfold wp_taken at 2, wp_offered. cbn [fst snd]. rewrite V. cbn [andb].
        rewrite !in_app_iff. destruct (uo_rd o); cbn; tauto. }
      apply in_map_iff in Hin. destruct Hin as [f [E1 E2]]. exists f. auto. }
    assert (ui_vld i = true -> dreq_ok c (ui_req i) /\ chunk_aligned c (ui_req i) /\ fits c (ui_req i) /\ (AL c = 1 \/ q_addr (ui_req i) mod WB c = 0)) as Hrok.
    { intros V. destruct (Hreq V) as [f [F1 <-]]. rewrite Forall_forall in Hfs. apply (Hfs f F1). }
    assert (AInv2 c ah' (ta ++ [x])) as Hah'.
    { assert (ai_vld ai = true -> dreq_ok c (ai_req ai) /\ chunk_aligned c (ai_req ai) /\ fits c (ai_req ai)) as Hr3 by (intros V; destruct (Hrok V) as [? [? [? _]]]; auto).
      pose proof (ainv2_step c xl Hc HW (u_ah s) ta ai Hr3 Iah) as G. rewrite Eah in G. cbn [fst snd] in G. apply G. exact (wsame_kept _ _ Hs' Hk). }
    assert (u_aerr s' = false) as Eae.
    { unfold s'. cbn [u_aerr]. destruct (Nat.eqb_spec (AL c) 1) as [_|Ha1]; [reflexivity|]. destruct (ui_vld i); [|reflexivity].
      destruct (Hrok eq_refl) as [_ [_ [_ [Ha|Ha]]]]; [contradiction|]. unfold addr_is_aligned, addr_offset. rewrite (proj1 (wb_bits c Hc HW)), Ha. reflexivity. }
    assert (u_err s' = false) as Ee.
    { unfold s'. cbn [u_err]. destruct (ui_bv i); [rewrite (Hok eq_refl)|]; reflexivity. }
    set (I0 := flat_map ah_info ta) in *.
    assert (flat_map ah_info (ta ++ [x]) = I0 ++ ah_info x) as EI by (rewrite flat_map_app; cbn [flat_map]; rewrite app_nil_r; reflexivity).
    destruct (plan_pre c HW (u_ah s) ta qs (proj1 Iah)) as [_ [Ppi [_ _]]]; [rewrite (wsame_started _ _ Isame); exact Hst0|]. fold I0 in Ppi.
    (* events of the cycle *)
    assert (wp_beat (i, o) = if fire then [(wd, do_split)] else []) as Eb.
    { unfold wp_beat, fire, o. cbn [fst snd uo_v uo_w uo_last]. destruct (ui_v i || wait), wv, brd, (ui_rdy i); reflexivity. }
    assert (wp_dword (i, o) = if fire && negb wait then [(ui_w i, ui_last i)] else []) as Ed.
    { unfold wp_dword, fire, o. cbn [fst snd uo_rdy]. destruct wait, (ui_v i), wv, brd, (ui_rdy i); reflexivity. }
    set (rs := ui_bv i && ovld (u_bf s) && ui_ack i).
    assert (wp_resp (i, o) = if rs then [tt] else []) as Er.
    { unfold wp_resp, rs, o. cbn [fst snd uo_brdy]. destruct (ui_bv i), (ovld (u_bf s)), (ui_ack i); reflexivity. }
    assert (wp_ack (i, o) = if rs && dreg (hf (u_bf s)) then [tt] else []) as Ea.
    { unfold wp_ack, rs, o. cbn [fst snd uo_ack]. destruct (ui_bv i), (ovld (u_bf s)), (ui_ack i), (dreg (hf (u_bf s))); reflexivity. }
    pose proof (hrep_step (OVERLAP c) HD (u_wf s) _ wfi Iwf) as H1. cbv zeta in H1. rewrite step_out in H1. cbn [h_rd h_vld h_data i_vld i_data i_rd wfi] in H1. fold wv info in H1.
    destruct H1 as [Hwf [Hwh _]].
    pose proof (hrep_step (OVERLAP c) HD (u_bf s) _ bfi Ibf) as H1. cbv zeta in H1. rewrite step_out in H1. cbn [h_rd h_vld h_data i_vld i_data i_rd bfi] in H1. fold brd in H1.
    destruct H1 as [Hbf [Hbh _]].
    replace (wv && ((ui_v i || wait) && ui_rdy i && brd && do_split)) with (fire && do_split) in Hwf
      by (unfold fire; destruct (ui_v i || wait), wv, brd, (ui_rdy i), do_split; reflexivity).
    replace ((ui_v i || wait) && wv && ui_rdy i && do_split && brd) with (fire && do_split) in Hbf
      by (unfold fire; destruct (ui_v i || wait), wv, brd, (ui_rdy i), do_split; reflexivity).
    replace (ovld (u_bf s) && (ui_bv i && ui_ack i)) with rs in Hbf by (unfold rs; destruct (ovld (u_bf s)), (ui_bv i), (ui_ack i); reflexivity).
    assert (map (fun n => store_info c (fst n)) (ah_info x) = if ao_ivld ao && negb (f_wwait (hf (u_wf s))) then [store_info c (ui_req i)] else []) as Einf.
    { unfold ah_info, x. cbn [fst snd ai ai_irdy]. destruct (ao_ivld ao && negb (f_wwait (hf (u_wf s)))); reflexivity. }
    (* responses *)
    set (M := map snd (firstn (cons_ t) I0)) in *.
    assert (length M = cons_ t) as LM by (unfold M; rewrite map_length, firstn_length; lia).
    assert (rs = true -> nth_error (map snd I0) (nresp t) = Some (dreg (hf (u_bf s))) /\ nresp t < cons_ t) as Hrs.
    { intros R. destruct (Hbh ltac:(unfold rs in R; destruct (ui_bv i), (ovld (u_bf s)); try discriminate; reflexivity)) as [r Eq].
      assert (nresp t < cons_ t) as Lr by (apply (f_equal (@length bool)) in Eq; rewrite skipn_length, LM in Eq; cbn in Eq; lia). split; [|exact Lr].
      apply nth_error_skipn_hd in Eq. unfold M in Eq. rewrite <- firstn_map in Eq.
      rewrite <- (firstn_skipn (cons_ t) (map snd I0)), nth_error_app1; [exact Eq|]. rewrite firstn_length, map_length. lia. }
    assert (forall I', length (flat_map wp_ack (t ++ [(i, o)])) = trues (firstn (nresp (t ++ [(i, o)])) (map snd (I0 ++ I'))) /\ nresp (t ++ [(i, o)]) <= cons_ t) as Hack.
    { intros I'. rewrite !flat_map_app. cbn [flat_map]. rewrite !app_nil_r, !app_length, Iack, Er, Ea, map_app.
      destruct rs eqn:R; cbn [length andb].
      - destruct (Hrs eq_refl) as [Hn Lr]. rewrite firstn_app_le by (rewrite map_length; lia). rewrite (firstn_snoc_nth _ _ _ Hn), trues_app. split; [|lia].
        f_equal. destruct (dreg (hf (u_bf s))); reflexivity.
      - rewrite !Nat.add_0_r, firstn_app_le by (rewrite map_length; lia). split; [reflexivity|lia]. }
    assert (nresp (t ++ [(i, o)]) = nresp t + (if rs then 1 else 0)) as Enr.
    { rewrite flat_map_app, app_length. cbn [flat_map]. rewrite app_nil_r, Er. destruct rs; reflexivity. }
    assert (forall K, (if rs then tl (skipn (nresp t) M) else skipn (nresp t) M) ++ K = skipn (nresp (t ++ [(i, o)])) (M ++ K)) as Hsk.
    { intros K. rewrite Enr. destruct rs eqn:R.
      - destruct (Hrs eq_refl) as [_ Lr]. rewrite skipn_app. replace (nresp t + 1 - length M) with 0 by lia. cbn [skipn]. f_equal.
        destruct (skipn (nresp t) M) as [|z r] eqn:Ez; [apply (f_equal (@length bool)) in Ez; rewrite skipn_length, LM in Ez; cbn in Ez; lia|].
        rewrite (skipn_S_tl _ _ _ _ Ez). reflexivity.
      - rewrite Nat.add_0_r, skipn_app. replace (nresp t - length M) with 0 by lia. reflexivity. }
    destruct fire eqn:Ef.
    - (* a word is sent *)
      assert (wv = true) as Ewv by (unfold fire in Ef; destruct (ui_v i || wait), wv; try discriminate; reflexivity).
      destruct (Hwh Ewv) as [r0 Eq0]. destruct (skipn (cons_ t) I0) as [|[q' l'] ri] eqn:Esk; [discriminate|]. cbn [map fst] in Eq0. injection Eq0 as Einfo _.
      pose proof (nth_error_skipn_hd _ _ _ _ Esk) as Hn0. assert (cons_ t < length I0) as Lc by (apply nth_error_Some; congruence).
      pose proof (pre_nth _ _ _ _ Ppi Hn0) as Hnp.
      assert (cons_ t = length (flat_map (plan_infos c) (map fst done)) + match todo with [] => 0 | _ => b / N end) as Ec.
      { rewrite Ilasts, trues_app, trues_flat. f_equal. destruct todo as [|f todo']; [reflexivity|]. apply trues_part. exact Ib. }
      assert (nth_error (flat_map (plan_infos c) (map fst todo)) (match todo with [] => 0 | _ => b / N end) = Some (q', l')) as Hnp'.
      { rewrite Ec, Ifs, map_app, flat_map_app in Hnp. set (z := match todo with [] => 0 | _ => b / N end) in *.
        rewrite nth_error_app2, Nat.add_comm, Nat.add_sub in Hnp by (apply Nat.le_add_r). exact Hnp. }
      clear Hnp. rename Hnp' into Hnp.
      destruct todo as [|[q ws] todo]; [discriminate|]. cbn [map fst snd flat_map] in *.
      assert (frame_ok c (q, ws)) as Hf by (rewrite Forall_forall in Hfs; apply Hfs; rewrite Ifs, in_app_iff; right; left; reflexivity).
      pose proof Hf as [Hfl [Hfw [_ [Hq [_ [Hfit _]]]]]]. cbn [fst snd] in *.
      assert (b / N <= (nw q - 1) / N) as Lbn by (apply Nat.div_le_mono; [exact HN|lia]).
      assert (q' = q /\ l' = (b / N =? (nw q - 1) / N)) as [-> El'].
      { rewrite nth_error_app1 in Hnp by (unfold plan_infos; rewrite app_length, repeat_length; cbn; lia). unfold plan_infos in Hnp.
        destruct (Nat.eqb_spec (b / N) ((nw q - 1) / N)) as [E|E].
        - rewrite E, nth_error_app2, repeat_length, Nat.sub_diag in Hnp by (rewrite repeat_length; lia). cbn in Hnp. injection Hnp as <- <-. auto.
        - rewrite nth_error_app1, nth_error_repeat in Hnp by (rewrite ?repeat_length; lia). injection Hnp as <- <-. auto. }
      rewrite (store_eq c Hc HW q Hq) in Einfo.
      (* control *)
      assert (u_wait s = wait) as Ewt.
      { unfold wait. destruct (always_aligned c) eqn:Eal; [|reflexivity].
        destruct (u_wait s) eqn:Eu; [|reflexivity]. exfalso.
        destruct (beat_ctrl c Hc HW q b (u_wait s) (b =? q_len q) Hq Ib ltac:(rewrite Eu; exact Iwait) ltac:(auto)) as [_ G].
        destruct (G Eu) as [G1 _]. rewrite (al_sh c q Hq Eal) in G1. discriminate. }
      rewrite Ewt in Iwait.
      assert (shifted = negb (q_addr q mod WB c =? 0)) as Esh.
      { unfold shifted. rewrite <- Einfo. cbn [wf_shift]. destruct (always_aligned c) eqn:Eal; [rewrite (al_sh c q Hq Eal)|]; reflexivity. }
      assert (wf_drop info = negb (q_addr q mod WB c =? 0) && negb (WB c - q_addr q mod WB c <? in_lastw c q)) as Edrop by (rewrite <- Einfo; reflexivity).
      assert (wait = false -> nth_error ws b = Some (ui_w i) /\ ui_last i = (b =? q_len q)) as Hword.
      { intros Hw. destruct Hdw as [more Em]. rewrite flat_map_app in Em. cbn [flat_map] in Em. rewrite Ed, Hw, Iwords in Em. cbn [andb negb app] in Em. rewrite ?app_nil_r in Em.
        rewrite Ifs, flat_map_app in Em. cbn [flat_map] in Em. rewrite <- !app_assoc in Em. apply app_inv_head in Em.
        assert (b <= q_len q) as Lb.
        { rewrite Hw in Iwait. symmetry in Iwait. apply Nat.eqb_neq in Iwait. rewrite (nw_eq c Hc HW q Hq) in Ib. destruct (_ <? _) in Ib; lia. }
        apply (frame_words_nth (q, ws) b (ui_w i) (ui_last i) Hfl).
        assert (length (firstn b (frame_words (q, ws))) = b) as Lfw by (rewrite firstn_length, (frame_words_len (q, ws) Hfl); cbn [fst]; lia).
        assert (nth_error (frame_words (q, ws) ++ flat_map frame_words todo) b = Some (ui_w i, ui_last i)) as G.
        { rewrite Em, nth_error_app2 by lia. rewrite Lfw, Nat.sub_diag. reflexivity. }
        rewrite nth_error_app1 in G by (rewrite (frame_words_len (q, ws) Hfl); cbn [fst]; lia). exact G. }
      destruct (beat_ctrl c Hc HW q b wait (ui_last i) Hq Ib Iwait ltac:(intros Hw; apply (Hword Hw))) as [Ctl Cw].
      assert (in_last = (b + 1 =? nw q)) as Eil by (unfold in_last; rewrite Esh, Edrop; exact Ctl).
      assert (do_split = ((b + 1) mod N =? 0) || (b + 1 =? nw q)) as Eds.
      { unfold do_split, split0. rewrite Eil.
        assert (always_aligned c && (LW c =? 0) = true -> ((b + 1) mod N =? 0) = true) as H0.
        { intros E0. apply andb_prop in E0. destruct E0 as [_ E0]. apply Nat.eqb_eq in E0. rewrite E0. apply Nat.eqb_eq. cbn [Nat.pow]. apply Nat.mod_1_r. }
        destruct (use_split c) eqn:Eu.
        - rewrite (Icnt eq_refl). rewrite (mod_succ N b HN) in *. unfold len_max.
          destruct (always_aligned c && (LW c =? 0)); [|reflexivity]. rewrite (H0 eq_refl). reflexivity.
        - destruct (always_aligned c && (LW c =? 0)); [rewrite (H0 eq_refl); reflexivity|].
          destruct Hfit as [E|[Ln _]]; [apply (split_long c Hc) in E; congruence|].
          destruct (Nat.eqb_spec (b + 1) (nw q)) as [E|E]; [rewrite orb_true_r; reflexivity|]. rewrite orb_false_r, Nat.mod_small by lia. symmetry. apply Nat.eqb_neq. lia. }
      assert (do_split = true -> l' = in_last) as Hl'.
      { intros E. rewrite El', Eil. rewrite Eds in E. destruct (Nat.eqb_spec (b + 1) (nw q)) as [E1|E1].
        - apply Nat.eqb_eq. f_equal. lia.
        - rewrite orb_false_r in E. apply Nat.eqb_neq. pose proof (div_succ N b HN) as D. rewrite E in D.
          assert ((b + 1) / N <= (nw q - 1) / N) by (apply Nat.div_le_mono; [exact HN|lia]). lia. }
      assert (nth_error (plan_lasts c q) b = Some do_split) as Hpn by (rewrite Eds; apply plan_nth; exact Ib).
      (* the word *)
      assert (wd = apply_shift c xb (q_addr q mod WB c) wait (b =? 0) (u_prev s) (ui_w i)) as Ewd.
      { unfold wd. rewrite <- Einfo, Ifirst. cbn [wf_shift]. destruct (always_aligned c) eqn:Eal; [rewrite (al_sh c q Hq Eal)|]; reflexivity. }
      destruct (beat_writes c xb Hc HW q ws b wait (u_prev s) (ui_w i) Hf Ib Iwait Iplen Iprev ltac:(intros Hw; apply (Hword Hw))) as [Wr Wend].
      assert (map snd (flat_map wp_beat (t ++ [(i, o)])) = map snd (flat_map wp_beat t) ++ [do_split]) as Els.
      { rewrite flat_map_app, map_app. cbn [flat_map]. rewrite app_nil_r, Eb. reflexivity. }
      assert (cons_ (t ++ [(i, o)]) = cons_ t + (if do_split then 1 else 0)) as Ecn by (rewrite Els, trues_app; destruct do_split; reflexivity).
      assert (bus_writes c PA (map fst (flat_map wp_beat (t ++ [(i, o)]))) = flat_map (frame_writes c) done ++ part_writes c (q, ws) (b + 1)) as Ewr.
      { rewrite flat_map_app, map_app. cbn [flat_map]. rewrite app_nil_r, Eb. cbn [map fst]. erewrite bus_snoc; [rewrite Iwrites, Ewd, <- app_assoc, Wr; reflexivity|].
        rewrite map_length, <- (map_length snd), Ilasts, app_length, plan_flat_len, firstn_length, plan_len, Nat.min_l by lia.
        rewrite Ifs, map_app, flat_map_app. rewrite nth_error_app2, (Nat.add_comm _ b), Nat.add_sub by (apply Nat.le_add_r). cbn [map flat_map fst].
        rewrite nth_error_app1 by (rewrite words_len; exact Ib).
        unfold word_addrs. rewrite nth_error_map, nth_error_seq' by exact Ib. reflexivity. }
      assert (flat_map wp_dword (t ++ [(i, o)]) = flat_map frame_words done ++ firstn (b + 1) (frame_words (q, ws))) as Edws.
      { rewrite flat_map_app. cbn [flat_map]. rewrite app_nil_r, Ed, Iwords, <- app_assoc. f_equal. destruct wait eqn:Ew; cbn [andb negb].
        - symmetry in Iwait. apply Nat.eqb_eq in Iwait. rewrite app_nil_r, !firstn_all2 by (rewrite (frame_words_len (q, ws) Hfl); cbn [fst]; lia). reflexivity.
        - destruct (Hword eq_refl) as [W1 W2]. symmetry. apply firstn_snoc_nth. unfold frame_words. cbn [fst snd].
          assert (b < length ws) as Lb by (apply nth_error_Some; congruence). rewrite Hfl in Lb.
          rewrite nth_error_combine, W1. cbn.
          assert (nth_error (repeat false (q_len q) ++ [true]) b = Some (b =? q_len q)) as ->; [|rewrite W2; reflexivity].
          destruct (Nat.eqb_spec b (q_len q)) as [-> |Hne]; [rewrite nth_error_app2, repeat_length, Nat.sub_diag by (rewrite repeat_length; lia); reflexivity|].
          rewrite nth_error_app1, nth_error_repeat by (rewrite ?repeat_length; lia). reflexivity. }
      assert (HRep (OVERLAP c) (u_wf s') (map (fun n => store_info c (fst n)) (skipn (cons_ (t ++ [(i, o)])) (flat_map ah_info (ta ++ [x]))))) as Hwf'.
      { rewrite EI, Ecn, skipn_app. replace (cons_ t + (if do_split then 1 else 0) - length I0) with 0 by (destruct do_split; lia). cbn [skipn]. rewrite map_app, Einf.
        cbn [andb] in Hwf. destruct do_split.
        - rewrite (skipn_S_tl _ _ _ _ Esk). exact Hwf.
        - rewrite Nat.add_0_r, Esk. exact Hwf. }
      assert (HRep (OVERLAP c) (u_bf s') (skipn (nresp (t ++ [(i, o)])) (map snd (firstn (cons_ (t ++ [(i, o)])) (flat_map ah_info (ta ++ [x])))))) as Hbf'.
      { rewrite EI, Ecn. rewrite firstn_app_le by (destruct do_split; lia). cbn [andb] in Hbf. rewrite Hsk in Hbf. destruct do_split.
        - rewrite (firstn_snoc_nth _ _ _ Hn0), map_app. cbn [map snd]. rewrite (Hl' eq_refl). exact Hbf.
        - rewrite app_nil_r in Hbf. rewrite Nat.add_0_r. exact Hbf. }
      assert (ui_v i = true) as Hv.
      { destruct wait eqn:Ew; [|unfold fire in Ef; destruct (ui_v i); [reflexivity|discriminate]].
        destruct Hg as [Hg|Hg].
        - apply Hg. unfold o. cbn [uo_v]. unfold fire in Ef. destruct (ui_v i || true), wv, brd, (ui_rdy i); cbn in *; congruence.
        - exfalso. rewrite Forall_forall in Hg. specialize (Hg (q, ws)). rewrite Ifs, in_app_iff in Hg. cbn [fst In] in Hg. destruct (Cw eq_refl) as [G _].
          rewrite Hg in G; [discriminate|tauto]. }
      assert (length (ui_w i) = WB c \/ wait = true) as Hlw.
      { destruct wait eqn:Ew; [right; reflexivity|left]. destruct (Hword eq_refl) as [W1 _]. rewrite Forall_forall in Hfw. apply Hfw, (nth_error_In _ _ W1). }
      assert (fire_v = true) as Efv by (unfold fire_v, fire in *; rewrite Hv in *; destruct wv, (ui_rdy i), brd; cbn in *; congruence).
      assert (length (u_prev s') = WB c) as Hpl'.
      { unfold s'. cbn [u_prev andb]. destruct wait; cbn [negb]; [exact Iplen|]. destruct Hlw as [H|H]; [exact H|discriminate]. }
      assert (nth_error ws (Nat.min b (q_len q)) = Some (u_prev s')) as Hpr'.
      { unfold s'. cbn [u_prev andb]. destruct wait eqn:Ew; cbn [negb].
        - symmetry in Iwait. apply Nat.eqb_eq in Iwait. rewrite <- Iprev by lia. f_equal. lia.
        - destruct (Hword eq_refl) as [W1 _]. rewrite <- W1. f_equal. assert (b < length ws) by (apply nth_error_Some; congruence). lia. }
      assert (u_first s' = (b + 1 =? nw q)) as Hfi'.
      { unfold s'. cbn [u_first andb]. rewrite Edrop, Esh. rewrite <- Ctl. destruct wait eqn:Ew.
        - destruct (Cw eq_refl) as [G1 G2]. rewrite G1, G2. reflexivity.
        - destruct (Nat.eqb_spec (q_addr q mod WB c) 0); cbn [negb andb orb]; [reflexivity|]. apply andb_comm. }
      assert (u_wait s' = (b + 1 =? q_len q + 1) && negb (b + 1 =? nw q)) as Hwt'.
      { unfold s'. cbn [u_wait andb]. rewrite Ewt, Edrop, Esh, Hv. pose proof (nw_eq c Hc HW q Hq) as En.
        destruct (always_aligned c) eqn:Eal.
        - rewrite (al_sh c q Hq Eal) in En. pose proof (inl_range c HW q Hq). replace (WB c - 0 <? in_lastw c q) with false in En by (symmetry; apply Nat.ltb_ge; lia).
          rewrite En. replace (q_len q + 1 + 0) with (q_len q + 1) by lia. destruct (b + 1 =? q_len q + 1); reflexivity.
        - destruct wait eqn:Ew.
          + symmetry in Iwait. apply Nat.eqb_eq in Iwait. replace (b + 1 =? q_len q + 1) with false by (symmetry; apply Nat.eqb_neq; lia). cbn [negb]. rewrite andb_false_r. reflexivity.
          + destruct (Hword eq_refl) as [_ ->]. cbn [andb negb]. rewrite andb_true_r.
            replace (b + 1 =? q_len q + 1) with (b =? q_len q) by (destruct (Nat.eqb_spec b (q_len q)), (Nat.eqb_spec (b + 1) (q_len q + 1)); try reflexivity; lia).
            pose proof (inl_range c HW q Hq) as HL. destruct (Nat.eqb_spec b (q_len q)) as [E1|E1]; [|reflexivity]. cbn [andb].
            destruct (Nat.eqb_spec (q_addr q mod WB c) 0) as [E0|E0]; cbn [negb andb].
            * rewrite E0 in En. replace (WB c - 0 <? in_lastw c q) with false in En by (symmetry; apply Nat.ltb_ge; lia). symmetry. apply negb_false_iff, Nat.eqb_eq. lia.
            * destruct (WB c - q_addr q mod WB c <? in_lastw c q); cbn [negb]; symmetry; [apply negb_true_iff, Nat.eqb_neq|apply negb_false_iff, Nat.eqb_eq]; lia. }
      assert (use_split c = true -> u_cnt s' = if b + 1 =? nw q then 0 else (b + 1) mod N) as Hcn'.
      { intros Eu. unfold s'. cbn [u_cnt]. rewrite Eu, Efv. cbn [andb]. rewrite Eds, (Icnt Eu). destruct (b + 1 =? nw q); [rewrite orb_true_r; reflexivity|]. rewrite orb_false_r.
        destruct (Nat.eqb_spec ((b + 1) mod N) 0) as [E|E]; [lia|]. symmetry. apply mod_succ_small; [exact HN|]. intros Ex. apply E, Nat.eqb_eq. rewrite (mod_succ N b HN). apply Nat.eqb_eq. exact Ex. }
      destruct (Hack (ah_info x)) as [Hack1 Hack2].
      assert (cons_ (t ++ [(i, o)]) <= length (flat_map ah_info (ta ++ [x]))) as Hcons' by (rewrite EI, Ecn, app_length; destruct do_split; lia).
      assert (nresp (t ++ [(i, o)]) <= cons_ (t ++ [(i, o)])) as Hresp' by (rewrite Ecn; lia).
      rewrite <- EI in Hack1.
      destruct (Nat.eqb_spec (b + 1) (nw q)) as [En|En].
      + (* the frame is complete *)
        exists (done ++ [(q, ws)]), todo, 0. constructor; auto.
        * rewrite Ifs, <- app_assoc. reflexivity.
        * destruct todo as [|f todo]; [reflexivity|apply nw_pos].
        * rewrite Els, Ilasts, map_app, flat_map_app, <- !app_assoc. cbn [map flat_map fst]. rewrite app_nil_r. f_equal.
          rewrite <- (firstn_snoc_nth _ _ _ Hpn), firstn_all2 by (rewrite plan_len; lia). destruct todo; rewrite app_nil_r; reflexivity.
        * intros Eu. rewrite (Hcn' Eu). symmetry. apply Nat.mod_0_l. exact HN.
        * rewrite Hwt', andb_false_r. destruct todo; [reflexivity|]. symmetry. apply Nat.eqb_neq. lia.
        * lia.
        * rewrite Edws, flat_map_app, <- app_assoc. cbn [flat_map]. rewrite app_nil_r, firstn_all2 by (rewrite (frame_words_len (q, ws) Hfl), En, (nw_eq c Hc HW q Hq); cbn [fst]; lia).
          destruct todo; rewrite app_nil_r; reflexivity.
        * rewrite Ewr, (Wend En), flat_map_app, <- app_assoc. cbn [flat_map]. rewrite app_nil_r. f_equal.
          destruct todo as [|f todo]; [rewrite app_nil_r; reflexivity|]. unfold part_writes. cbn [Nat.mul Nat.sub firstn writes_at]. rewrite app_nil_r. reflexivity.
      + exists done, ((q, ws) :: todo), (b + 1). constructor; auto; cbn [fst snd].
        * lia.
        * rewrite Els, Ilasts, <- app_assoc. f_equal. symmetry. apply firstn_snoc_nth. exact Hpn.
        * rewrite Hwt'. apply andb_true_r.
        * rewrite Hfi'. symmetry. apply Nat.eqb_neq. lia.
        * intros _. replace (b + 1 - 1) with b by lia. exact Hpr'.
    - (* nothing is sent *)
      assert (fire_v = false) as Efv by (unfold fire_v, fire in *; destruct (ui_v i), wait, wv, (ui_rdy i), brd; cbn in *; congruence).
      assert (flat_map wp_beat (t ++ [(i, o)]) = flat_map wp_beat t) as Ebt by (rewrite flat_map_app; cbn [flat_map]; rewrite Eb; apply app_nil_r).
      assert (flat_map wp_dword (t ++ [(i, o)]) = flat_map wp_dword t) as Edt by (rewrite flat_map_app; cbn [flat_map]; rewrite Ed; apply app_nil_r).
      destruct (Hack (ah_info x)) as [Hack1 Hack2]. rewrite <- EI in Hack1. cbn [andb] in Hwf, Hbf. rewrite app_nil_r in Hbf || rewrite Hsk, app_nil_r in Hbf.
      exists done, todo, b. constructor; auto; try (rewrite ?Ebt, ?Edt; assumption).
      + rewrite Ebt, EI, app_length. lia.
      + rewrite Ebt, EI, skipn_app. replace (cons_ t - length I0) with 0 by lia. cbn [skipn]. rewrite map_app, Einf. exact Hwf.
      + rewrite Ebt, EI, firstn_app_le by lia. fold M. unfold s'. cbn [u_bf]. rewrite <- (app_nil_r M), <- Hsk, app_nil_r. exact Hbf.
      + intros Eu. unfold s'. cbn [u_cnt]. rewrite Eu, Efv. cbn [andb]. apply (Icnt Eu).
      + unfold s'. cbn [u_wait andb]. destruct (always_aligned c) eqn:Eal; [|exact Iwait].
        destruct todo as [|[q ws] todo]; [reflexivity|]. cbn [fst] in *.
        assert (frame_ok c (q, ws)) as Hf by (rewrite Forall_forall in Hfs; apply Hfs; rewrite Ifs, in_app_iff; right; left; reflexivity).
        destruct Hf as [_ [_ [_ [Hq _]]]]. cbn [fst] in Hq.
        destruct (u_wait s) eqn:Eu; [|exact Iwait]. exfalso.
        destruct (beat_ctrl c Hc HW q b (u_wait s) (b =? q_len q) Hq Ib ltac:(rewrite Eu; exact Iwait) ltac:(auto)) as [_ G].
        destruct (G Eu) as [G1 _]. rewrite (al_sh c q Hq Eal) in G1. discriminate.
  Qed.

  Lemma beat_info s t ta done todo b (i : wp_in B) : WInv s t ta done todo b ->
    wp_beat (i, snd (step s i)) <> [] -> cons_ t < length (flat_map ah_info ta).
  Proof.
    intros I Hb. pose proof (hrep_step (OVERLAP c) HD (u_wf s) _ (mk_hin false (dreg (hf (u_wf s))) false) (wv_wf _ _ _ _ _ _ I)) as H.
    cbv zeta in H. rewrite step_out in H. cbn [h_vld h_data] in H. destruct H as [_ [H _]].
    assert (ovld (u_wf s) = true) as V.
    { destruct (ovld (u_wf s)) eqn:E; [reflexivity|]. exfalso. apply Hb. unfold wp_beat, wp_step. destruct (ah_step _ _ _ _). cbn [fst snd uo_v].
      rewrite E, ?andb_false_r. reflexivity. }
    destruct (H V) as [r Eq]. apply (f_equal (@length winfo)) in Eq. rewrite map_length, skipn_length in Eq. cbn in Eq. lia.
  Qed.
  Lemma trues_bursts (bs : list (nat * nat)) : trues (flat_map burst_lasts bs) = length bs.
  Proof. induction bs as [|x bs IH]; [reflexivity|]. cbn [flat_map]. rewrite trues_app, IH. unfold burst_lasts. rewrite trues_app, trues_rep. reflexivity. Qed.

  (** guard of a run *)
  Definition w_guard (t : list cyc) : Prop := wp_busy t \/ Forall (fun f => q_addr (fst f) mod WB c = 0) fs.
  Lemma wkept_prefix (t : list cyc) y : wp_kept (t ++ [y]) -> wp_kept t.
  Proof. intros H t1 x z t2 E. apply (H t1 x z (t2 ++ [y])). rewrite E, <- app_assoc. reflexivity. Qed.
  Lemma driver_prefix (t : list cyc) y : wp_driver c fs (t ++ [y]) -> wp_driver c fs t.
  Proof. intros [H1 H2]. split; [exact H1|]. intros t1 t2 E. apply (H2 t1 (t2 ++ [y])). rewrite E, <- app_assoc. reflexivity. Qed.
  Lemma guard_prefix (t : list cyc) y : w_guard (t ++ [y]) -> w_guard t.
  Proof. intros [H|H]; [left|right; exact H]. apply Forall_app in H. apply H. Qed.

  Lemma w_run a0 l0 m0 d0 m1 d1 p0 (is : list (wp_in B)) : length p0 = WB c ->
    Forall (fun i => ui_bv i = true -> ui_okay i = true) is ->
    wp_kept (trace step (wp_init c a0 l0 m0 d0 m1 d1 p0) is) -> wp_driver c fs (trace step (wp_init c a0 l0 m0 d0 m1 d1 p0) is) ->
    w_guard (trace step (wp_init c a0 l0 m0 d0 m1 d1 p0) is) ->
    exists ta done todo b, WInv (final step (wp_init c a0 l0 m0 d0 m1 d1 p0) is) (trace step (wp_init c a0 l0 m0 d0 m1 d1 p0) is) ta done todo b /\
      pre (map snd (flat_map wp_beat (trace step (wp_init c a0 l0 m0 d0 m1 d1 p0) is)))
          (flat_map burst_lasts (flat_map wp_burst (trace step (wp_init c a0 l0 m0 d0 m1 d1 p0) is))) /\
      Forall (fun x : cyc => uo_err (snd x) = false /\ uo_aerr (snd x) = false) (trace step (wp_init c a0 l0 m0 d0 m1 d1 p0) is).
  Proof.
    intros Hp. set (s0 := wp_init c a0 l0 m0 d0 m1 d1 p0). induction is as [|i is IH] using rev_ind; intros He Hk Hd Hg.
    - exists [], [], fs, 0. split; [|split; [exists []; reflexivity|constructor]]. constructor; cbn [flat_map map]; try reflexivity; try exact Hp.
      + destruct fs as [|f l]; [reflexivity|apply nw_pos].
      + constructor.
      + apply ainv2_init.
      + destruct fs; reflexivity.
      + apply (hrep_init (OVERLAP c) HD [] m0 d0). left. cbn. lia.
      + apply (hrep_init (OVERLAP c) HD [] m1 d1). left. cbn. lia.
      + split; reflexivity.
      + intros _. cbn. symmetry. apply Nat.mod_0_l, N_pos.
      + cbn. destruct fs; [reflexivity|]. symmetry. rewrite Nat.add_comm. reflexivity.
      + lia.
      + destruct fs; reflexivity.
      + unfold bus_writes. rewrite combine_nil. cbn. destruct fs; reflexivity.
    - apply Forall_app in He. destruct He as [He1 He2]. inversion_clear He2 as [|? ? He3 _].
      rewrite final_snoc, trace_snoc in *. fold s0 in Hk, Hd, Hg |- *. set (s := final step s0 is) in *. set (t := trace step s0 is) in *.
      destruct (IH He1 (wkept_prefix _ _ Hk) (driver_prefix _ _ Hd) (guard_prefix _ _ Hg)) as [ta [done [todo [b [I [P Er]]]]]].
      destruct Hd as [_ Hd]. destruct (Hd (t ++ [(i, snd (step s i))]) [] (eq_sym (app_nil_r _))) as [D1 D2]. destruct (Hd t [(i, snd (step s i))] eq_refl) as [D3 _].
      assert ((uo_v (snd (step s i)) = true -> ui_v i = true) \/ Forall (fun f => q_addr (fst f) mod WB c = 0) fs) as Hg'.
      { destruct Hg as [Hg|Hg]; [left|right; exact Hg]. apply Forall_app in Hg. destruct Hg as [_ Hg]. inversion_clear Hg as [|? ? G _]. exact G. }
      destruct (w_step s t ta done todo b i I He3 Hk D1 D2 D3 Hg') as [x [done' [todo' [b' I']]]].
      exists (ta ++ [x]), done', todo', b'. split; [exact I'|]. rewrite and_comm. split.
      { apply Forall_app. split; [exact Er|]. constructor; [|constructor]. destruct (wv_err _ _ _ _ _ _ I) as [X1 X2]. unfold wp_step. destruct (ah_step _ _ _ _). cbn [snd uo_err uo_aerr]. auto. }
      assert (pre (map snd (flat_map wp_beat (t ++ [(i, snd (step s i))]))) (flat_map (plan_lasts c) qs)) as P1.
      { rewrite (wv_lasts _ _ _ _ _ _ I'). rewrite (wv_fs _ _ _ _ _ _ I'). rewrite map_app, flat_map_app. apply pre_cong. destruct todo' as [|f l]; [exists []; reflexivity|].
        cbn [map flat_map]. eapply pre_trans; [|apply pre_app]. exists (skipn b' (plan_lasts c (fst f))). rewrite firstn_skipn. reflexivity. }
      destruct (plan_pre c HW _ _ qs (proj1 (wv_ah _ _ _ _ _ _ I'))) as [P2 [_ [_ _]]]; [rewrite (wsame_started _ _ (wv_same _ _ _ _ _ _ I')); exact D1|].
      rewrite (wsame_burst _ _ (wv_same _ _ _ _ _ _ I')) in P2.
      apply (pre_le _ _ _ P1 P2).
      destruct (plan_pre c HW _ _ qs (proj1 (wv_ah _ _ _ _ _ _ I))) as [P3 [_ [_ P4]]]; [rewrite (wsame_started _ _ (wv_same _ _ _ _ _ _ I)); exact D3|].
      rewrite (wsame_burst _ _ (wv_same _ _ _ _ _ _ I)) in P3, P4.
      rewrite !flat_map_app, map_app, !app_length. cbn [flat_map]. rewrite !app_nil_r, map_length.
      pose proof (pre_len _ _ P) as L. rewrite map_length in L.
      assert (length (wp_beat (i, snd (step s i))) <= 1) as L1 by (unfold wp_beat; destruct (_ && _); cbn; lia).
      rewrite map_length.
      destruct (wp_beat (i, snd (step s i))) as [|z zs] eqn:Ez; [cbn [length]; lia|].
      assert (cons_ t < length (flat_map ah_info ta)) as Lc by (apply (beat_info _ _ _ _ _ _ i I); rewrite Ez; discriminate).
      destruct (Nat.le_gt_cases (length (flat_map burst_lasts (flat_map wp_burst t))) (length (flat_map wp_beat t))) as [Ll|Ll]; [exfalso|lia].
      rewrite <- (map_length snd (flat_map wp_beat t)) in Ll.
      destruct P as [more Pm]. rewrite Pm, app_length in Ll. assert (more = []) as -> by (destruct more; [reflexivity|cbn in Ll; lia]). rewrite app_nil_r in Pm.
      rewrite <- Pm, trues_bursts, P4 in Lc. lia.
  Qed.

  Lemma bus_pre (a a' : list nat) (ws : list (list (B * bool))) : pre a a' -> length ws <= length a -> bus_writes c a ws = bus_writes c a' ws.
  Proof.
    intros [m ->]. unfold bus_writes. intros L. f_equal. revert ws L. induction a as [|x a IH]; intros [|w ws] L; cbn [length] in L; try lia; [rewrite !combine_nil; reflexivity| |].
    - rewrite !combine_nil. reflexivity.
    - cbn [combine app]. rewrite (IH ws) by lia. reflexivity.
  Qed.
  Lemma trues_done l : trues (map snd (flat_map (plan_infos c) l)) = length l.
  Proof.
    induction l as [|q l IH]; [reflexivity|]. cbn [flat_map]. rewrite map_app, trues_app, IH. unfold plan_infos. rewrite map_app, trues_app.
    replace (map snd (repeat (q, false) ((nw q - 1) / N))) with (repeat false ((nw q - 1) / N)) by (induction ((nw q - 1) / N) as [|n IHn]; [reflexivity|cbn; f_equal; exact IHn]).
    rewrite trues_rep. reflexivity.
  Qed.

  Lemma w_law s t ta done todo b : WInv s t ta done todo b -> pre (map snd (flat_map wp_beat t)) (flat_map burst_lasts (flat_map wp_burst t)) ->
    pre (wp_started t) qs -> Forall (fun x : cyc => uo_err (snd x) = false /\ uo_aerr (snd x) = false) t -> wp_law c fs t.
  Proof.
    intros I P Hst Her. pose proof (wv_same _ _ _ _ _ _ I) as Hs.
    destruct (plan_pre c HW _ _ qs (proj1 (wv_ah _ _ _ _ _ _ I))) as [_ [Ppi [Pad Pl]]]; [rewrite (wsame_started _ _ Hs); exact Hst|].
    rewrite (wsame_burst _ _ Hs) in Pad, Pl.
    assert (bus_writes c (flat_map (beats (WB c) (AW c)) (flat_map wp_burst t)) (map fst (flat_map wp_beat t)) = bus_writes c PA (map fst (flat_map wp_beat t))) as Eb.
    { apply bus_pre; [exact Pad|]. rewrite beats_len, map_length. apply pre_len in P. rewrite map_length in P. exact P. }
    destruct (inv_law c HW _ ta (proj1 (wv_ah _ _ _ _ _ _ I))) as [gs [rest [Hg [Hb [Hi Hr]]]]].
    exists (map fst gs), (fst rest).
    assert (map snd (flat_map ah_info ta) = flat_map (fun g : list (nat * nat) => repeat false (length g - 1) ++ [true]) (map fst gs) ++ repeat false (length (fst rest))) as Em.
    { assert (forall (q : dreq) (v : bool) n, map snd (repeat (q, v) n) = repeat v n) as Hrp by (induction n as [|n IHn]; [reflexivity|cbn; f_equal; exact IHn]).
      rewrite Hi, map_app. f_equal.
      - clear -Hg Hrp. induction Hg as [|q g l gs [_ _ _ [Hm _]] _ IH]; [reflexivity|]. cbn [flat_map map]. rewrite map_app, IH, Hm, map_app, Hrp. reflexivity.
      - destruct Hr as [-> | [t1 [x [_ [_ [_ [_ _ Hm]]]]]]]; [reflexivity|]. rewrite Hm, Hrp. reflexivity. }
    split; [rewrite <- (wsame_taken _ _ Hs); clear -Hg; induction Hg as [|q g l gs [Hq1 Hq2 _ _] _ IH]; constructor; [split; assumption|exact IH]|].
    split; [rewrite <- (wsame_burst _ _ Hs), Hb; f_equal; clear; induction gs as [|g gs IH]; [reflexivity|cbn; f_equal; exact IH]|].
    split.
    { destruct Hr as [-> | [t1 [x [Et [V [Rd Bg]]]]]]; [left; reflexivity|right]. subst ta.
      apply Forall2_app_inv_l in Hs. destruct Hs as [u1 [u2 [_ [F2 Eu]]]]. inversion F2 as [|? y ? ? Sx F3]; subst. inversion F3; subst.
      exists u1, y. split; [reflexivity|]. destruct Sx as [X1 [X2 [_ [X4 _]]]]. unfold wp_offered. rewrite <- X1, <- X4, V, Rd, <- X2.
      split; [discriminate|]. destruct Bg as [[m [B1 B2]] B3 _]. split; [eapply Forall_impl; [|exact B3]; intros e Ee; cbn in Ee |- *; lia|]. exists m. split; [exact B1|lia]. }
    split; [exact P|].
    assert (length (flat_map wp_ack t) <= length done) as La.
    { rewrite (wv_ack _ _ _ _ _ _ I). replace (length done) with (trues (map snd (flat_map (plan_infos c) (map fst done)))) by (rewrite trues_done; apply map_length).
      assert (pre (firstn (nresp t) (map snd (flat_map ah_info ta))) (map snd (flat_map (plan_infos c) (map fst done)) ++ match todo with [] => [] | f :: _ => repeat false (b / N) end)) as Pq.
      { pose proof (wv_resp _ _ _ _ _ _ I) as Lr. pose proof (wv_cons _ _ _ _ _ _ I) as Lc.
        destruct Ppi as [mi Emi]. apply (f_equal (map snd)) in Emi. rewrite map_app in Emi.
        apply (pre_le _ _ (map snd (flat_map (plan_infos c) qs))).
        - rewrite Emi. eapply pre_trans; [|apply pre_app]. exists (skipn (nresp t) (map snd (flat_map ah_info ta))). rewrite firstn_skipn. reflexivity.
        - rewrite (wv_fs _ _ _ _ _ _ I), map_app, flat_map_app, map_app. apply pre_cong. destruct todo as [|f l]; [exists []; reflexivity|].
          cbn [map flat_map]. unfold plan_infos at 1. rewrite !map_app.
          assert (b / N <= (nw (fst f) - 1) / N) as Lb by (apply Nat.div_le_mono; [apply N_pos|]; pose proof (wv_b _ _ _ _ _ _ I); cbn in *; lia).
          replace (map snd (repeat (fst f, false) ((nw (fst f) - 1) / N))) with (repeat false ((nw (fst f) - 1) / N)) by (induction ((nw (fst f) - 1) / N) as [|n IHn]; [reflexivity|cbn; f_equal; apply IHn; lia] || (clear; induction ((nw (fst f) - 1) / N) as [|n IHn]; [reflexivity|cbn; f_equal; exact IHn])).
          replace ((nw (fst f) - 1) / N) with (b / N + ((nw (fst f) - 1) / N - b / N)) by lia. rewrite repeat_app, <- !app_assoc. apply pre_app.
        - rewrite firstn_length, !app_length, !map_length. pose proof (wv_lasts _ _ _ _ _ _ I) as Hl. apply (f_equal (fun l => trues l)) in Hl.
          rewrite trues_app, trues_flat in Hl. destruct todo as [|f l]; cbn [length filter] in *; [lia|]. rewrite trues_part in Hl by (exact (wv_b _ _ _ _ _ _ I)). rewrite repeat_length. lia. }
      apply trues_pre in Pq. rewrite trues_app in Pq. destruct todo; cbn [filter length] in Pq; rewrite ?trues_rep in Pq; lia. }
    split; [|split; [exact (wv_resp _ _ _ _ _ _ I)|split; [|split; [|exact Her]]]].
    - rewrite Eb, (wv_writes _ _ _ _ _ _ I). rewrite (wv_fs _ _ _ _ _ _ I). rewrite flat_map_app. destruct todo as [|f l]; [exists []; rewrite !app_nil_r; reflexivity|].
      assert (exists z, frame_writes c f = part_writes c f b ++ z) as [z Ez].
      { unfold part_writes, frame_writes. set (n := b * WB c - q_addr (fst f) mod WB c). exists (writes_at c (q_addr (fst f) + length (firstn n (concat (snd f)))) (skipn n (concat (snd f)))).
        rewrite <- writes_app, firstn_skipn by eassumption. reflexivity. }
      cbn [flat_map]. rewrite Ez. eexists. rewrite <- !app_assoc. reflexivity.
    - rewrite (wv_ack _ _ _ _ _ _ I), Em. reflexivity.
    - rewrite Eb, (wv_writes _ _ _ _ _ _ I). rewrite (wv_fs _ _ _ _ _ _ I). rewrite firstn_app_le by exact La.
      assert (exists z, flat_map (frame_writes c) done = flat_map (frame_writes c) (firstn (length (flat_map wp_ack t)) done) ++ z) as [z Ez].
      { exists (flat_map (frame_writes c) (skipn (length (flat_map wp_ack t)) done)). rewrite <- flat_map_app, firstn_skipn. reflexivity. }
      rewrite Ez. eexists. rewrite <- app_assoc. reflexivity.
  Qed.
End Run.

Lemma wp_run_law {B} c xl (xb : B) a0 l0 m0 d0 m1 d1 p0 fs (is : list (wp_in B)) : dp_cfg_ok c -> 2 <= WB c -> 2 <= OVERLAP c -> length p0 = WB c ->
  Forall (fun i => ui_bv i = true -> ui_okay i = true) is ->
  wp_kept (trace (wp_step c xl xb) (wp_init c a0 l0 m0 d0 m1 d1 p0) is) -> wp_driver c fs (trace (wp_step c xl xb) (wp_init c a0 l0 m0 d0 m1 d1 p0) is) ->
  wp_busy (trace (wp_step c xl xb) (wp_init c a0 l0 m0 d0 m1 d1 p0) is) \/ Forall (fun f => q_addr (fst f) mod WB c = 0) fs ->
  wp_law c fs (trace (wp_step c xl xb) (wp_init c a0 l0 m0 d0 m1 d1 p0) is).
Proof.
  intros Hc HW HD Hp He Hk Hd Hg. pose proof Hd as [Hf Hd'].
  destruct (w_run c xl xb Hc HW HD fs Hf a0 l0 m0 d0 m1 d1 p0 is Hp He Hk Hd Hg) as [ta [done [todo [b [I [P Er]]]]]].
  eapply (w_law c HW HD fs); [exact I|exact P| |exact Er]. apply (Hd' _ [] (eq_sym (app_nil_r _))).
Qed.

(** errors *)
Section Err.
  Context {B : Type}.
  Variables (c : dpcfg) (xl : nat) (xb : B).
  Notation step := (wp_step c xl xb).
  Lemma w_quiet s (i : wp_in B) : u_err s || u_aerr s = true ->
    wp_burst (i, snd (step s i)) = [] /\ wp_taken (i, snd (step s i)) = [] /\ wp_beat (i, snd (step s i)) = [].
  Proof.
    intros E. unfold wp_step. destruct (ah_step c xl (u_ah s) _) as [ah' ao] eqn:Ea.
    unfold wp_burst, wp_taken, wp_beat. cbn [fst snd uo_awv uo_rd uo_v]. rewrite E, ?andb_false_r. cbn [negb andb].
    unfold ah_step in Ea. cbn [ai_vld ai_req ai_rdy ai_irdy ai_err] in Ea. rewrite E in Ea.
    destruct (use_split c); unfold ah_split, ah_direct in Ea; cbn [ai_vld ai_req ai_rdy ai_irdy ai_err] in Ea; injection Ea as <- <-; cbn [ao_vld ao_rd];
      rewrite ?andb_false_r; cbn [negb andb]; rewrite ?andb_false_r; auto.
  Qed.
  Definition al_ok (s : @wp_st B) : Prop := AL c = 1 -> u_aerr s = false.
  Lemma al_ok_step s (i : wp_in B) : al_ok (fst (step s i)).
  Proof. intros H. unfold wp_step. destruct (ah_step _ _ _ _). cbn [fst u_aerr]. rewrite H. reflexivity. Qed.
  Lemma err_step s (i : wp_in B) : al_ok s -> u_err s || u_aerr s = true -> u_err (fst (step s i)) || u_aerr (fst (step s i)) = true.
  Proof.
    intros Ha E. unfold wp_step. destruct (ah_step _ _ _ _). cbn [fst u_err u_aerr]. destruct (u_err s); [reflexivity|]. cbn [orb] in E.
    destruct (Nat.eqb_spec (AL c) 1) as [H|_]; [rewrite (Ha H) in E; discriminate E|]. rewrite E. apply orb_true_r.
  Qed.
  Lemma out_err s (i : wp_in B) : uo_err (snd (step s i)) || uo_aerr (snd (step s i)) = u_err s || u_aerr s.
  Proof. unfold wp_step. destruct (ah_step _ _ _ _). reflexivity. Qed.
  Lemma w_err_run (is : list (wp_in B)) s : al_ok s -> u_err s || u_aerr s = true ->
    flat_map wp_burst (trace step s is) = [] /\ flat_map wp_taken (trace step s is) = [] /\ flat_map wp_beat (trace step s is) = [] /\
    Forall (fun y => uo_err (snd y) || uo_aerr (snd y) = true) (trace step s is).
  Proof.
    revert s. induction is as [|i is IH]; intros s Ha E; [repeat split; constructor|]. rewrite trace_cons. cbn [flat_map].
    destruct (w_quiet s i E) as [E1 [E2 E3]]. destruct (IH _ (al_ok_step s i) (err_step s i Ha E)) as [I1 [I2 [I3 I4]]].
    rewrite E1, E2, E3, I1, I2, I3. repeat split. constructor; [cbn [snd]; rewrite out_err; exact E|exact I4].
  Qed.
  Lemma wp_error a0 l0 m0 d0 m1 d1 p0 (is : list (wp_in B)) t1 x t2 : dp_cfg_ok c -> 2 <= WB c ->
    trace step (wp_init c a0 l0 m0 d0 m1 d1 p0) is = t1 ++ x :: t2 ->
    (uo_err (snd x) || uo_aerr (snd x) = true -> flat_map wp_burst (x :: t2) = [] /\ flat_map wp_taken (x :: t2) = [] /\ flat_map wp_beat (x :: t2) = []) /\
    (ui_bv (fst x) && negb (ui_okay (fst x)) || negb (AL c =? 1) && ui_vld (fst x) && negb (q_addr (ui_req (fst x)) mod WB c =? 0) = true ->
       Forall (fun y => uo_err (snd y) || uo_aerr (snd y) = true) t2).
  Proof.
    intros Hc HW. assert (al_ok (wp_init c a0 l0 m0 d0 m1 d1 p0)) as Ha by (intros _; reflexivity). revert Ha.
    generalize (wp_init c a0 l0 m0 d0 m1 d1 p0). revert is. induction t1 as [|z t1 IH]; intros is s Ha E.
    - destruct is as [|i is]; [discriminate|]. rewrite trace_cons in E. cbn [app] in E. injection E as Ex Et. split.
      + intros Hf. rewrite <- Ex in Hf. cbn [snd] in Hf. rewrite out_err in Hf.
        pose proof (w_err_run (i :: is) s Ha Hf) as R. rewrite trace_cons, Ex, Et in R. tauto.
      + intros Hf. rewrite <- Ex in Hf. cbn [fst] in Hf. rewrite <- Et. refine (proj2 (proj2 (proj2 (w_err_run is _ (al_ok_step s i) _)))).
        unfold wp_step. destruct (ah_step _ _ _ _). cbn [fst u_err u_aerr]. destruct (wb_bits c Hc HW) as [Ew _].
        unfold addr_is_aligned, addr_offset. rewrite Ew.
        destruct (AL c =? 1); cbn [negb andb orb] in Hf; apply orb_true_iff in Hf; destruct Hf as [Hf|Hf]; try discriminate Hf; rewrite Hf; rewrite ?orb_true_r; reflexivity.
    - destruct is as [|i is]; [discriminate|]. rewrite trace_cons in E. cbn [app] in E. injection E as _ Et. exact (IH _ _ (al_ok_step s i) Et).
  Qed.
End Err.
