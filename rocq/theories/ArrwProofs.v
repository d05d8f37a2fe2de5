From Verif Require Import Base BaseFacts FifoModel HsFifoProofs ArrwModel ArrwSpec.

Section P.
  Context {A : Type}.
  Variables AW DW BD TIMEOUT ITEMS b : nat.
  Hypothesis HBD : 2 <= BD /\ BD <= 16.
  Hypothesis HI : BD <= ITEMS.
  Hypothesis HT : 2 <= TIMEOUT.
  Let al := align_bits DW.
  Hypothesis Hal : al <= AW.
  Hypothesis Hb : b < 2 ^ (AW - al).
  Let B := 2 ^ al.
  Notation step := (aw_step (A := A) AW DW BD TIMEOUT ITEMS).
  Notation cellb := (cell B AW ITEMS (b * B)).

  Definition Inv (s : aw_st A) (cur : option (nat * nat)) (k u : nat) (q : list A) : Prop :=
    HRep BD (a_buf s) q /\ a_base s = b /\ a_up s = wrap 16 u /\ a_off s < ITEMS /\ a_rem s = ITEMS - a_off s /\
    match a_fsm s with
    | WaitInput => cur = None /\ a_lw s = 0 /\ a_off s = k mod ITEMS /\ (a_tmo s = 0 -> q <> []) /\ u = k
    | WaitTx => cur = Some (cellb k, a_lw s - 1) /\ 1 <= a_lw s /\ a_lw s <= length q /\ k mod ITEMS + a_lw s <= ITEMS /\ a_off s = (k mod ITEMS + a_lw s) mod ITEMS /\ a_tmo s = TIMEOUT - 1 /\ u + a_size s = k + a_lw s
    | WaitAck => cur = None /\ a_lw s = 0 /\ a_off s = k mod ITEMS /\ a_tmo s = TIMEOUT - 1 /\ u + a_size s = k
    end.

  Lemma cell_addr k : wrap (AW - al) (b + k mod ITEMS) * 2 ^ al = cellb k.
  Proof.
    unfold cell, wrap, B. replace (2 ^ AW) with (2 ^ (AW - al) * 2 ^ al) by (rewrite <- Nat.pow_add_r; f_equal; lia).
    rewrite <- Nat.mul_add_distr_r. rewrite Nat.mul_mod_distr_r; [reflexivity|apply Nat.pow_nonzero; lia|apply Nat.pow_nonzero; lia].
  Qed.
  Lemma cell_next k : k mod ITEMS + 1 < ITEMS -> (cellb k + B) mod 2 ^ AW = cellb (k + 1).
  Proof.
    intros H. unfold cell. rewrite Nat.add_mod_idemp_l by (apply Nat.pow_nonzero; lia). f_equal. rewrite (Nat.add_mod k 1), (Nat.mod_small 1), (Nat.mod_small (k mod ITEMS + 1)) by lia. lia.
  Qed.
  Lemma off_pow : ITEMS < 2 ^ off_w ITEMS.
  Proof. unfold off_w. pose proof (log2ceil_ge (ITEMS + 1)). lia. Qed.
  Lemma size_pow : BD + 1 < 2 ^ hs_size_w BD.
  Proof. unfold hs_size_w. pose proof (log2ceil_ge (BD + 1 + 1)). lia. Qed.
  Lemma len_pow : 2 ^ len_w = 16. Proof. reflexivity. Qed.

  Lemma inv_step s cur k u q i : Inv s cur k u q -> i_bv i = false ->
    let s' := fst (step s i) in let o := snd (step s i) in
    let sent := o_wv o && i_wrdy i in let rq := o_reqv o && i_reqrd i in
    exists cur',
    Inv s' cur' (if sent then k + 1 else k) (if i_ackv i && i_ackid i && o_ackrd o then k else u)
        ((if sent then tl q else q) ++ (if i_iv i && o_ird o then [i_item i] else [])) /\
    (sent = true -> rq = false /\ exists a n q', cur = Some (a, n) /\ q = o_wd o :: q' /\ a = cellb k /\ o_wlast o = (n =? 0) /\ cur' = if n =? 0 then None else Some ((a + B) mod 2 ^ AW, n - 1)) /\
    (rq = true -> cur = None /\ cur' = Some (o_addr o, o_len o)) /\
    (sent = false -> rq = false -> cur' = cur) /\
    o_uploaded o = wrap 16 u.
  Proof.
    intros (HR & Hbs & Hup & Hoff & Hrem & HF) Hbv. destruct HBD as [H2 H16].
    pose proof (hrep_len _ H2 _ _ HR) as Hlen.
    pose proof (hrep_step _ H2 _ _ (mk_hin (i_iv i) (i_item i) (i_wrdy i && is_tx (a_fsm s))) HR) as HS. cbn zeta in HS.
    destruct HS as (HS1 & HS2 & _ & _ & HS5 & _).
    unfold aw_step. destruct (hsf_step BD (a_buf s) (mk_hin (i_iv i) (i_item i) (i_wrdy i && is_tx (a_fsm s)))) as [buf' bo] eqn:E.
    cbn [fst snd i_vld i_data i_rd] in *. cbn zeta. rewrite Hbv.
    pose proof off_pow as Po. pose proof size_pow as Ps. pose proof len_pow as Pl.
    cbn [fst snd o_ird o_reqv o_addr o_len o_wv o_wd o_wlast o_ackrd o_uploaded o_remain]. unfold Inv. cbn [a_buf a_fsm a_size a_base a_off a_rem a_lw a_tmo a_up].
    rewrite Hbs. fold al. destruct (a_fsm s) eqn:Ef; cbn [is_input is_tx is_ack andb] in *; rewrite ?andb_false_r, ?andb_true_r in *; cbn [andb] in *.
    - destruct HF as (-> & Hlw & Ho & Hq & ->). rewrite Hlw. cbn [Nat.eqb negb andb].
      rewrite HS5 in *.
      assert (wdec (off_w ITEMS) (a_rem s) = a_rem s - 1) as Ed by (apply wdec_pos; lia). rewrite Ed.
      rewrite (wrap_small (off_w ITEMS) (length q)) by lia.
      destruct (((length q =? BD) || (a_tmo s =? 0)) && i_reqrd i) eqn:Er.
      + apply andb_true_iff in Er. destruct Er as [Er Erd]. rewrite Er, Erd. cbn [andb].
        assert (1 <= length q) as Hq1. { apply orb_true_iff in Er. destruct Er as [Er|Er]; [apply Nat.eqb_eq in Er; lia|]. apply Nat.eqb_eq in Er. specialize (Hq Er). destruct q; [congruence|cbn; lia]. }
        eexists. split; [|split; [discriminate|split; [intros _; split; reflexivity|split; [discriminate|exact Hup]]]].
        assert (k mod ITEMS < ITEMS) as Hk by (apply Nat.mod_upper_bound; lia).
        split; [exact HS1|]. split; [reflexivity|]. split; [rewrite Hup; reflexivity|].
        destruct (a_rem s - 1 <? length q) eqn:El; [apply Nat.ltb_lt in El|apply Nat.ltb_ge in El].
        * rewrite (wrap_small (hs_size_w BD) (a_rem s)) by lia. rewrite (wrap_small len_w) by lia. rewrite Ho, cell_addr.
          split; [lia|]. split; [lia|]. split; [reflexivity|]. split; [lia|]. split; [rewrite app_length; lia|]. split; [lia|].
          split; [|split; [reflexivity|lia]]. rewrite Hrem, Ho. replace (k mod ITEMS + (ITEMS - k mod ITEMS)) with ITEMS by lia. rewrite Nat.mod_same; lia.
        * rewrite (wdec_pos (hs_size_w BD)) by lia. rewrite (wrap_small len_w) by lia. rewrite Ho, cell_addr.
          rewrite (wrap_small (off_w ITEMS) (k mod ITEMS + length q)) by lia.
          assert (wrap (off_w ITEMS) (a_rem s + 2 ^ off_w ITEMS - length q) = a_rem s - length q) as Ew.
          { unfold wrap. replace (a_rem s + 2 ^ off_w ITEMS - length q) with (a_rem s - length q + 1 * 2 ^ off_w ITEMS) by lia. rewrite Nat.mod_add by lia. apply Nat.mod_small. lia. }
          rewrite Ew. split; [lia|]. split; [lia|]. split; [reflexivity|]. split; [lia|]. split; [rewrite app_length; lia|]. split; [lia|]. split; [rewrite (Nat.mod_small (k mod ITEMS + length q)); lia|]. split; [reflexivity|lia].
      + exists None. split; [|split; [discriminate|split; [discriminate|split; [reflexivity|exact Hup]]]].
        split; [exact HS1|]. split; [reflexivity|]. split; [rewrite Hup; reflexivity|]. split; [exact Hoff|]. split; [exact Hrem|].
        split; [reflexivity|]. split; [reflexivity|]. split; [exact Ho|]. split; [|reflexivity].
        destruct ((length q =? BD) || (a_tmo s =? 0)) eqn:Eb.
        * cbn in Er. rewrite Er. intros Ht. specialize (Hq Ht). destruct q; [congruence|discriminate].
        * apply orb_false_iff in Eb. destruct Eb as [_ Eb]. rewrite Eb. cbn [negb]. rewrite andb_true_r.
          apply Nat.eqb_neq in Eb. destruct (h_vld bo) eqn:Ev; [|intros; lia]. intros _. destruct (HS2 eq_refl) as [q' ->]. discriminate.
    - destruct HF as (-> & Hl1 & Hlq & Hk & Ho & Ht & Hu).
      assert ((if negb (a_lw s =? 0) && (i_wrdy i && h_vld bo) then a_lw s - 1 else a_lw s) = if h_vld bo && i_wrdy i then a_lw s - 1 else a_lw s) as El.
      { rewrite (andb_comm (i_wrdy i)). replace (a_lw s =? 0) with false by (symmetry; apply Nat.eqb_neq; lia). reflexivity. }
      rewrite El. clear El. rewrite (andb_comm (i_wrdy i)).
      assert (k mod ITEMS < ITEMS) as Hk0 by (apply Nat.mod_upper_bound; lia).
      destruct (h_vld bo && i_wrdy i) eqn:Es.
      + apply andb_true_iff in Es. destruct Es as [Ev Ew]. destruct (HS2 Ev) as [q' ->]. cbn [length tl] in *. cbn [andb]. rewrite !andb_true_r.
        destruct (Nat.eqb_spec (a_lw s) 1) as [E1|E1].
        * exists None. split; [|split; [|split; [discriminate|split; [discriminate|exact Hup]]]].
          { split; [exact HS1|]. split; [reflexivity|]. split; [rewrite ?andb_false_r; exact Hup|]. split; [exact Hoff|]. split; [exact Hrem|].
            rewrite E1 in *. cbn [Nat.sub]. split; [reflexivity|]. split; [reflexivity|]. rewrite ?andb_false_r. split; [|split; [exact Ht|exact Hu]].
            rewrite Ho. rewrite Nat.add_mod_idemp_l by lia. reflexivity. }
          intros _. split; [reflexivity|]. exists (cellb k), 0, q'. rewrite E1. repeat split; reflexivity.
        * eexists. split; [|split; [|split; [discriminate|split; [discriminate|exact Hup]]]].
          { split; [exact HS1|]. split; [reflexivity|]. split; [rewrite ?andb_false_r; exact Hup|]. split; [exact Hoff|]. split; [exact Hrem|].
            assert ((k + 1) mod ITEMS = k mod ITEMS + 1) as Em by (rewrite (Nat.add_mod k 1), (Nat.mod_small 1), (Nat.mod_small (k mod ITEMS + 1)) by lia; reflexivity).
            split; [reflexivity|]. split; [lia|]. split; [rewrite app_length; lia|]. rewrite Em. split; [lia|]. split; [rewrite Ho; f_equal; lia|]. split; [exact Ht|]. rewrite ?andb_false_r. lia. }
          intros _. split; [reflexivity|]. exists (cellb k), (a_lw s - 1), q'. split; [reflexivity|]. split; [reflexivity|]. split; [reflexivity|].
          replace (a_lw s - 1 =? 0) with false by (symmetry; apply Nat.eqb_neq; lia). split; [reflexivity|]. rewrite cell_next by lia. repeat f_equal.
      + cbn [andb]. rewrite ?andb_false_r. eexists. split; [|split; [discriminate|split; [discriminate|split; [reflexivity|exact Hup]]]].
        split; [exact HS1|]. split; [reflexivity|]. split; [exact Hup|]. split; [exact Hoff|]. split; [exact Hrem|]. split; [reflexivity|]. split; [exact Hl1|]. split; [rewrite app_length; lia|]. split; [exact Hk|]. split; [exact Ho|]. split; [exact Ht|exact Hu].
    - destruct HF as (-> & Hlw & Ho & Ht & Hu). rewrite Hlw. cbn [Nat.eqb negb andb]. exists None. split; [|split; [discriminate|split; [discriminate|split; [reflexivity|exact Hup]]]].
      split; [exact HS1|]. split; [reflexivity|]. destruct (i_ackv i && i_ackid i); cbn [a_fsm].
      + split; [rewrite Hup; unfold wrap; rewrite Nat.add_mod_idemp_l by discriminate; rewrite Hu; reflexivity|]. split; [exact Hoff|]. split; [exact Hrem|]. split; [reflexivity|]. split; [reflexivity|]. split; [exact Ho|]. split; [lia|reflexivity].
      + split; [exact Hup|]. split; [exact Hoff|]. split; [exact Hrem|]. split; [reflexivity|]. split; [reflexivity|]. split; [exact Ho|]. split; [exact Ht|exact Hu].
  Qed.

  Lemma written_req c rs ws : written B AW None (c :: rs) ws = @written A B AW (Some c) rs ws.
  Proof. destruct ws as [|[d l] ws]; reflexivity. Qed.

  Lemma run_law is : forall s cur k u q, Inv s cur k u q -> keeps_base is ->
    let t := trace step s is in
    (exists l, written B AW cur (reqs t) (words t) = Some l /\ map snd l = firstn (length (words t)) (q ++ items t) /\ map fst l = map cellb (seq k (length (words t)))) /\
    exists cur' q', Inv (final step s is) cur' (k + length (words t)) (acked k u t) q' /\ q ++ items t = map fst (words t) ++ q'.
  Proof.
    induction is as [|i is IH]; intros s cur k u q H Hk t.
    - split.
      + exists []. auto.
      + exists cur, q. cbn [trace]. subst t. cbn. rewrite Nat.add_0_r, app_nil_r. auto.
    - inversion Hk as [|? ? Hb0 Hk']; subst. destruct (inv_step s cur k u q i H Hb0) as (cur' & HI' & Hsent & Hrq & Hno & Hupl). cbn zeta in *.
      specialize (IH _ _ _ _ _ HI' Hk'). cbn zeta in IH. destruct IH as [(l & E1 & E2 & E3) (c2 & q2 & HI2 & E4)].
      subst t. rewrite trace_cons, final_cons.
      set (o := snd (step s i)) in *. set (t := trace step (fst (step s i)) is) in *.
      assert (words ((i, o) :: t) = (if o_wv o && i_wrdy i then [(o_wd o, o_wlast o)] else []) ++ words t) as Ew by reflexivity.
      assert (reqs ((i, o) :: t) = (if o_reqv o && i_reqrd i then [(o_addr o, o_len o)] else []) ++ reqs t) as Er by reflexivity.
      assert (items ((i, o) :: t) = (if i_iv i && o_ird o then [i_item i] else []) ++ items t) as Ei by reflexivity.
      assert (acked k u ((i, o) :: t) = acked (if o_wv o && i_wrdy i then k + 1 else k) (if i_ackv i && i_ackid i && o_ackrd o then k else u) t) as Ea.
      { cbn [acked fst snd words flat_map]. f_equal. destruct (o_wv o && i_wrdy i); cbn; lia. }
      rewrite Ew, Er, Ei, Ea.
      destruct (o_wv o && i_wrdy i) eqn:Es.
      + destruct (Hsent eq_refl) as (Hr & a & n & q' & -> & -> & -> & El & ->). rewrite Hr. cbn [app length map fst snd tl] in *. split.
        * cbn [written]. rewrite El, Bool.eqb_reflx, E1. eexists. split; [reflexivity|]. cbn [map fst snd seq firstn]. rewrite E2, E3, <- app_assoc, Nat.add_1_r. auto.
        * exists c2, q2. rewrite <- app_assoc in E4. rewrite E4. replace (k + S (length (words t))) with (k + 1 + length (words t)) by lia. auto.
      + cbn [app]. rewrite <- app_assoc in *. split; [|exists c2, q2; auto]. exists l. split; [|auto]. destruct (o_reqv o && i_reqrd i) eqn:Eq.
        * destruct (Hrq eq_refl) as [-> ->]. cbn [app]. rewrite written_req. exact E1.
        * rewrite <- (Hno eq_refl eq_refl). exact E1.
  Qed.

  Lemma inv_init m0 d0 s0 : Inv (aw_init BD TIMEOUT ITEMS m0 d0 s0 b) None 0 0 [].
  Proof.
    destruct HBD as [H2 _]. split; [apply hrep_init; auto; left; cbn; lia|]. cbn. split; [reflexivity|]. split; [reflexivity|]. split; [lia|]. split; [lia|]. split; [reflexivity|]. split; [reflexivity|]. split; [|split; [lia|reflexivity]]. rewrite Nat.mod_0_l; lia.
  Qed.

  Lemma c92_written m0 d0 s0 is : keeps_base is ->
    let t := trace step (aw_init BD TIMEOUT ITEMS m0 d0 s0 b) is in
    exists l, written B AW None (reqs t) (words t) = Some l /\ map snd l = firstn (length (words t)) (items t) /\ map fst l = map cellb (seq 0 (length (words t))).
  Proof. intros H. exact (proj1 (run_law is _ _ _ _ _ (inv_init m0 d0 s0) H)). Qed.

  Lemma c92_uploaded m0 d0 s0 is i : keeps_base is -> i_bv i = false ->
    let s := aw_init BD TIMEOUT ITEMS m0 d0 s0 b in
    o_uploaded (snd (step (final step s is) i)) = (acked 0 0 (trace step s is)) mod 2 ^ 16.
  Proof.
    intros H Hi. destruct (proj2 (run_law is _ _ _ _ _ (inv_init m0 d0 s0) H)) as (c & q & HI2 & _). destruct (inv_step _ _ _ _ _ i HI2 Hi) as (c' & _ & _ & _ & _ & E). exact E.
  Qed.

  (** progress *)
  Definition rank (s : aw_st A) : nat :=
    match a_fsm s with
    | WaitAck => TIMEOUT + 4
    | WaitInput => 3 + a_tmo s + (if ovld (a_buf s) then 0 else 1)
    | WaitTx => 1 + if ovld (a_buf s) then 0 else 1
    end.
  Lemma rank_step s cur k u q i : Inv s cur k u q -> i_bv i = false -> q <> [] -> (a_fsm s <> WaitInput \/ a_tmo s <= TIMEOUT - 1) ->
    let o := snd (step s i) in serves [(i, o)] -> (words [(i, o)] <> []) \/
    (rank (fst (step s i)) < rank s /\ (a_fsm (fst (step s i)) <> WaitInput \/ a_tmo (fst (step s i)) <= TIMEOUT - 1)).
  Proof.
    intros (HR & Hbs & Hup & Hoff & Hrem & HF) Hbv Hq Htm o Hs. destruct HBD as [H2 H16].
    pose proof (hrep_step _ H2 _ _ (mk_hin (i_iv i) (i_item i) (i_wrdy i && is_tx (a_fsm s))) HR) as HS. cbn zeta in HS.
    destruct HS as (_ & _ & HS3 & _ & _ & _ & HS7 & _).
    pose proof (step_out BD (a_buf s) (mk_hin (i_iv i) (i_item i) (i_wrdy i && is_tx (a_fsm s)))) as Eo.
    subst o. unfold serves in Hs. rewrite Forall_cons_iff in Hs. destruct Hs as [(Hs1 & Hs2 & Hs3) _]. cbn [words flat_map]. rewrite app_nil_r. cbn [fst snd] in *.
    unfold rank, aw_step in *. destruct (hsf_step BD (a_buf s) (mk_hin (i_iv i) (i_item i) (i_wrdy i && is_tx (a_fsm s)))) as [buf' bo] eqn:E.
    cbn [fst snd i_vld i_data i_rd] in *. cbn zeta in *.
    cbn [fst snd o_ird o_reqv o_addr o_len o_wv o_wd o_wlast o_ackrd o_uploaded o_remain a_fsm a_tmo a_buf] in *.
    assert (h_vld bo = ovld (a_buf s)) as Ev by (rewrite Eo; reflexivity).
    destruct (a_fsm s) eqn:Ef; cbn [is_input is_tx is_ack andb] in *; rewrite ?andb_false_r, ?andb_true_r in *; cbn [andb] in *.
    - right. destruct Htm as [Htm|Htm]; [congruence|]. destruct ((h_size bo =? BD) || (a_tmo s =? 0)) eqn:Eb.
      + rewrite (Hs1 eq_refl). cbn [andb]. split; [destruct (ovld buf'), (ovld (a_buf s)); lia|]. left. discriminate.
      + cbn [andb]. apply orb_false_iff in Eb. destruct Eb as [_ Eb]. rewrite Eb. cbn [negb]. rewrite andb_true_r. apply Nat.eqb_neq in Eb. rewrite Ev in *. destruct (ovld (a_buf s)) eqn:Ea.
        * destruct (HS3 eq_refl eq_refl) as [-> _]. split; [lia|right; lia].
        * rewrite (HS7 eq_refl Hq). split; [lia|right; lia].
    - rewrite Ev in *. destruct (ovld (a_buf s)) eqn:Ea.
      + rewrite (Hs2 eq_refl). left. discriminate.
      + right. rewrite (HS7 eq_refl Hq). rewrite ?andb_false_r. split; [lia|left; discriminate].
    - right. destruct (Hs3 eq_refl) as [-> ->]. cbn [andb]. destruct HF as (_ & _ & _ & Ht & _). rewrite Ht. split; [destruct (ovld buf'); lia|right; lia].
  Qed.

  Lemma tmo_bound s cur k u q i : Inv s cur k u q -> a_tmo s <= TIMEOUT - 1 -> a_tmo (fst (step s i)) <= TIMEOUT - 1.
  Proof.
    intros _ H. unfold aw_step. destruct (hsf_step _ _ _) as [buf' bo]. cbn zeta. cbn [fst a_tmo].
    repeat match goal with |- context [if ?c then _ else _] => destruct c end; lia.
  Qed.
  Lemma tmo_final is : forall s cur k u q, Inv s cur k u q -> keeps_base is -> a_tmo s <= TIMEOUT - 1 -> a_tmo (final step s is) <= TIMEOUT - 1.
  Proof.
    induction is as [|i is IH]; intros s cur k u q H Hk Ht; [exact Ht|]. inversion Hk; subst. rewrite final_cons. destruct (inv_step s cur k u q i H) as (c & HI' & _); [assumption|]. eapply IH; [exact HI'|assumption|]. eapply tmo_bound; [exact H|exact Ht].
  Qed.
  Lemma prog is : forall s cur k u q, Inv s cur k u q -> keeps_base is -> q <> [] -> a_tmo s <= TIMEOUT - 1 -> serves (trace step s is) -> rank s <= length is -> words (trace step s is) <> [].
  Proof.
    induction is as [|i is IH]; intros s cur k u q H Hk Hq Ht Hs Hr.
    - exfalso. cbn in Hr. unfold rank in Hr. destruct (a_fsm s); lia.
    - inversion Hk as [|? ? Hb0 Hk']; subst. rewrite trace_cons in *. unfold serves in Hs. rewrite Forall_cons_iff in Hs. destruct Hs as [Hs1 Hs2].
      assert (words ((i, snd (step s i)) :: trace step (fst (step s i)) is) = words [(i, snd (step s i))] ++ words (trace step (fst (step s i)) is)) as Ew by (unfold words; cbn [flat_map]; rewrite app_nil_r; reflexivity).
      rewrite Ew. destruct (rank_step s cur k u q i H Hb0 Hq (or_intror Ht)) as [Hw|[Hl _]]; [constructor; [exact Hs1|constructor]| |].
      + destruct (words [(i, snd (step s i))]); [congruence|discriminate].
      + destruct (words [(i, snd (step s i))]) eqn:Ew0; [|discriminate]. cbn [app].
        destruct (inv_step s cur k u q i H Hb0) as (cur' & HI' & _). cbn zeta in HI'.
        assert (o_wv (snd (step s i)) && i_wrdy i = false) as En. { unfold words in Ew0. cbn [flat_map fst snd] in Ew0. destruct (o_wv (snd (step s i)) && i_wrdy i); [discriminate|reflexivity]. }
        rewrite En in HI'. eapply IH; [exact HI'|exact Hk'| |eapply tmo_bound; [exact H|exact Ht]|exact Hs2|cbn in Hr; lia].
        destruct q; [congruence|discriminate].
  Qed.
  Lemma c92_progress m0 d0 s0 is js : keeps_base (is ++ js) ->
    let s := aw_init BD TIMEOUT ITEMS m0 d0 s0 b in
    length (words (trace step s is)) < length (items (trace step s is)) ->
    serves (trace step (final step s is) js) -> TIMEOUT + 4 <= length js ->
    length (words (trace step s is)) < length (words (trace step s (is ++ js))).
  Proof.
    intros Hk s Hp Hs Hl. apply Forall_app in Hk. destruct Hk as [Hk1 Hk2].
    destruct (proj2 (run_law is _ _ _ _ _ (inv_init m0 d0 s0) Hk1)) as (c & q & HI2 & E4).
    rewrite trace_app. unfold words at 2. rewrite flat_map_app. fold (words (trace step s is)). fold (words (trace step (final step s is) js)). rewrite app_length.
    assert (words (trace step (final step s is) js) <> []) as Hn.
    { eapply prog; [exact HI2|exact Hk2| | |exact Hs|].
      - intros ->. fold s in E4. apply (f_equal (@length A)) in E4. rewrite app_nil_r, map_length in E4. cbn [app] in E4. lia.
      - eapply tmo_final; [exact (inv_init m0 d0 s0)|exact Hk1|cbn; lia].
      - assert (a_tmo (final step s is) <= TIMEOUT - 1) by (eapply tmo_final; [exact (inv_init m0 d0 s0)|exact Hk1|cbn; lia]). unfold rank. destruct (a_fsm (final step s is)), (ovld (a_buf (final step s is))); lia. }
    destruct (words (trace step (final step s is) js)); [congruence|cbn; lia].
  Qed.
End P.

Lemma align_pow a : 1 <= a -> 2 ^ align_bits (8 * 2 ^ a) = 2 ^ a.
Proof.
  intros H. unfold align_bits. rewrite Nat.mul_comm, Nat.div_mul by lia. destruct a as [|[|a]]; [lia|reflexivity|]. f_equal. unfold log2ceil.
  assert (4 <= 2 ^ S (S a)) as Hp by (cbn [Nat.pow]; pose proof (pow2_pos a); lia).
  destruct (Nat.leb_spec (2 ^ S (S a) - 1) 1) as [L|L]; [lia|].
  apply Nat.log2_up_unique; [lia|]. replace (2 ^ pred (S (S a))) with (2 ^ S a) by reflexivity. replace (2 ^ S (S a)) with (2 * 2 ^ S a) in * by reflexivity. assert (2 <= 2 ^ S a) by (cbn [Nat.pow]; pose proof (pow2_pos a); lia). lia.
Qed.

Section Top.
  Context {A : Type}.
  Variables AW a BD TIMEOUT ITEMS : nat.
  Hypothesis HBD : elaborates BD = true /\ BD <= 16.
  Hypothesis HI : BD <= ITEMS.
  Hypothesis HT : 2 <= TIMEOUT.
  Hypothesis Ha : 1 <= a <= AW.
  Notation step := (aw_step (A := A) AW (8 * 2 ^ a) BD TIMEOUT ITEMS).
  Notation init := (aw_init BD TIMEOUT ITEMS).

  Lemma bd2 : 2 <= BD /\ BD <= 16.
  Proof. destruct HBD as [H H']. split; [|exact H']. destruct BD as [|[|n]]; [discriminate H..|lia]. Qed.
  Lemma al_a : align_bits (8 * 2 ^ a) = a.
  Proof. apply (Nat.pow_inj_r 2); [lia|]. apply align_pow. lia. Qed.

  Definition nobase (i : aw_in A) : aw_in A := mk_ai (i_iv i) (i_item i) (i_reqrd i) (i_wrdy i) (i_ackv i) (i_ackid i) false (i_bd i).
  Lemma first m0 d0 s0 b0 i0 base : i_bv i0 = true -> i_bd i0 = base -> base < 2 ^ AW ->
    let s := init m0 d0 s0 b0 in let o := snd (step s i0) in
    let s' := init m0 d0 s0 (base / 2 ^ a) in let o' := snd (step s' (nobase i0)) in
    fst (step s i0) = fst (step s' (nobase i0)) /\ o_reqv o = false /\ o_wv o = false /\ o_wv o' = false /\ o_reqv o' = false /\ o_ird o = o_ird o' /\ o_ackrd o = false /\ o_ackrd o' = false.
  Proof.
    intros Hv Hd Hb. cbn zeta. unfold aw_step, nobase. cbn [i_iv i_item i_reqrd i_wrdy i_ackv i_ackid i_bv i_bd]. change (a_buf (init m0 d0 s0 b0)) with (hsf_init BD [] m0 d0). change (a_buf (init m0 d0 s0 (base / 2 ^ a))) with (hsf_init BD [] m0 d0).
    change (a_fsm (init m0 d0 s0 b0)) with WaitInput. change (a_fsm (init m0 d0 s0 (base / 2 ^ a))) with WaitInput.
    pose proof bd2 as [H2 _].
    assert (HRep BD (hsf_init BD [] m0 d0) []) as HR by (apply hrep_init; auto; left; cbn; lia).
    pose proof (hrep_step _ H2 _ _ (mk_hin (i_iv i0) (i_item i0) (i_wrdy i0 && is_tx WaitInput)) HR) as HS. cbn zeta in HS. destruct HS as (_ & HS2 & _ & _ & HS5 & _).
    destruct (hsf_step BD (hsf_init BD [] m0 d0) (mk_hin (i_iv i0) (i_item i0) (i_wrdy i0 && is_tx WaitInput))) as [buf' bo] eqn:E. cbn [fst snd] in *.
    cbn zeta. cbn [fst snd o_reqv o_wv o_ird o_ackrd is_input is_tx is_ack andb a_off a_rem a_lw a_tmo a_up a_size a_base aw_init]. rewrite HS5. cbn [length].
    replace (0 =? BD) with false by (symmetry; apply Nat.eqb_neq; lia). replace (TIMEOUT - 1 =? 0) with false by (symmetry; apply Nat.eqb_neq; lia). cbn [orb andb]. rewrite andb_false_r.
    rewrite Hv, Hd, al_a. split; [|auto 10]. f_equal. apply Nat.mod_small. apply Nat.div_lt_upper_bound; [apply Nat.pow_nonzero; lia|]. rewrite <- Nat.pow_add_r. replace (a + (AW - a)) with AW by lia. exact Hb.
  Qed.
  Lemma W8 : 8 * 2 ^ a / 8 = 2 ^ a. Proof. rewrite Nat.mul_comm. apply Nat.div_mul. lia. Qed.

  Section Run.
    Variables (m0 : nat -> A) (d0 : A) (s0 b0 : nat) (i0 : aw_in A) (base : nat).
    Hypothesis Hv : i_bv i0 = true.
    Hypothesis Hd : i_bd i0 = base.
    Hypothesis Hb : base < 2 ^ AW.
    Hypothesis Hm : base mod 2 ^ a = 0.
    Let b := base / 2 ^ a.
    Lemma b_lt : b < 2 ^ (AW - a).
    Proof. apply Nat.div_lt_upper_bound; [apply Nat.pow_nonzero; lia|]. rewrite <- Nat.pow_add_r. replace (a + (AW - a)) with AW by lia. exact Hb. Qed.
    Lemma b_mul : b * 2 ^ a = base.
    Proof. pose proof (Nat.div_mod base (2 ^ a) (Nat.pow_nonzero 2 a ltac:(lia))) as H. rewrite Hm in H. unfold b. lia. Qed.
    Lemma same is : let t := trace step (init m0 d0 s0 b0) (i0 :: is) in let t' := trace step (init m0 d0 s0 b) (nobase i0 :: is) in
      items t = items t' /\ words t = words t' /\ reqs t = reqs t' /\ acked 0 0 t = acked 0 0 t' /\ final step (init m0 d0 s0 b0) (i0 :: is) = final step (init m0 d0 s0 b) (nobase i0 :: is).
    Proof.
      cbn zeta. destruct (first m0 d0 s0 b0 i0 base Hv Hd Hb) as (E1 & E2 & E3 & E4 & E5 & E6 & E7 & E8). fold b in E1, E4, E5, E6, E8. rewrite !trace_cons, !final_cons. rewrite E1.
      set (t := trace step (fst (step (init m0 d0 s0 b) (nobase i0))) is).
      split; [|split; [|split; [|split; [|reflexivity]]]].
      - cbn [items flat_map fst snd]. rewrite E6. reflexivity.
      - cbn [words flat_map fst snd]. rewrite E3, E4. reflexivity.
      - cbn [reqs flat_map fst snd]. rewrite E2, E5. reflexivity.
      - cbn [acked words flat_map fst snd]. rewrite E3, E4, E7, E8, !andb_false_r. reflexivity.
    Qed.
    Lemma kb is : keeps_base is -> keeps_base (nobase i0 :: is). Proof. intros H. constructor; [reflexivity|exact H]. Qed.

    Lemma t92_written is : keeps_base is ->
      let t := trace step (init m0 d0 s0 b0) (i0 :: is) in
      exists l, written (8 * 2 ^ a / 8) AW None (reqs t) (words t) = Some l /\ map snd l = firstn (length (words t)) (items t) /\ map fst l = map (cell (8 * 2 ^ a / 8) AW ITEMS base) (seq 0 (length (words t))).
    Proof.
      intros H. cbn zeta. destruct (same is) as (-> & -> & -> & _ & _). rewrite W8.
      pose proof (c92_written (A := A) AW (8 * 2 ^ a) BD TIMEOUT ITEMS b bd2 HI HT) as L. rewrite al_a in L. specialize (L ltac:(lia) b_lt m0 d0 s0 _ (kb is H)). cbn zeta in L. rewrite b_mul in L. exact L.
    Qed.
    Lemma t92_uploaded is i : keeps_base is -> i_bv i = false ->
      o_uploaded (snd (step (final step (init m0 d0 s0 b0) (i0 :: is)) i)) = acked 0 0 (trace step (init m0 d0 s0 b0) (i0 :: is)) mod 2 ^ 16.
    Proof.
      intros H Hi. destruct (same is) as (_ & _ & _ & -> & ->).
      pose proof (c92_uploaded (A := A) AW (8 * 2 ^ a) BD TIMEOUT ITEMS b bd2 HI HT) as L. rewrite al_a in L. exact (L ltac:(lia) b_lt m0 d0 s0 _ i (kb is H) Hi).
    Qed.
    Lemma t92_progress is js : keeps_base (is ++ js) ->
      let s := init m0 d0 s0 b0 in
      length (words (trace step s (i0 :: is))) < length (items (trace step s (i0 :: is))) ->
      serves (trace step (final step s (i0 :: is)) js) -> TIMEOUT + 4 <= length js ->
      length (words (trace step s (i0 :: is))) < length (words (trace step s ((i0 :: is) ++ js))).
    Proof.
      intros H. cbn zeta. rewrite <- app_comm_cons. destruct (same is) as (-> & -> & _ & _ & ->). destruct (same (is ++ js)) as (_ & -> & _ & _ & _).
      pose proof (c92_progress (A := A) AW (8 * 2 ^ a) BD TIMEOUT ITEMS b bd2 HI HT) as L. rewrite al_a in L. exact (L ltac:(lia) b_lt m0 d0 s0 (nobase i0 :: is) js (kb _ H)).
    Qed.
  End Run.
End Top.
