From Verif Require Import Base BaseFacts FifoModel HsFifoProofs LlrModel LlrSpec.

Section P.
  Variables ID IDL CAP ITEMS AW DW PW : nat.
  Variable mem : nat -> nat.
  Let al := l_al DW.
  Let B := 2 ^ al.
  Let X := AW - al.
  Hypothesis Hid : ID <> IDL.
  Hypothesis HC : 4 <= CAP.
  Hypothesis HI : 1 <= ITEMS.
  Hypothesis HP : ITEMS < 2 ^ PW.
  Hypothesis Hal : al <= AW.
  Variable b0 : nat.
  Hypothesis Hb0 : b0 < 2 ^ X.
  Notation step := (l_step ID IDL CAP ITEMS AW DW PW).
  Notation bst := (burst CAP).
  Notation nd := (node mem B AW ITEMS (b0 * B)).
  Notation itm := (item mem B AW ITEMS (b0 * B)).
  Notation ans := (answer mem B AW).

  Lemma Bpos : 0 < B. Proof. apply pow2_pos. Qed.
  Lemma AWsplit : 2 ^ AW = B * 2 ^ X.
  Proof. unfold B, X. rewrite <- Nat.pow_add_r. f_equal. lia. Qed.
  Lemma ptr_idx d : pointer B AW d = wrap X (d / B) * B.
  Proof.
    unfold pointer, wrap. rewrite AWsplit. pose proof Bpos. pose proof (pow2_pos X).
    rewrite Nat.mod_mul_r by lia. f_equal. rewrite Nat.add_comm, Nat.mul_comm. rewrite Nat.div_add_l by lia. rewrite (Nat.div_small (d mod B)) by (apply Nat.mod_upper_bound; lia). lia.
  Qed.
  (** node numbers as indexes of words *)
  Definition ni (n : nat) : nat := nd n / B.
  Lemma nd_idx n : nd n = ni n * B /\ ni n < 2 ^ X.
  Proof.
    pose proof Bpos. assert (exists x, nd n = x * B /\ x < 2 ^ X) as (x & E & L).
    { destruct n as [|n]; [exists b0; split; [reflexivity|exact Hb0]|]. exists (wrap X (mem ((nd n + ITEMS * B) mod 2 ^ AW) / B)). split; [apply ptr_idx|apply wrap_lt]. }
    unfold ni. rewrite E. rewrite Nat.div_mul by lia. auto.
  Qed.
  (** memory by index of a word *)
  Definition mw (x : nat) : nat := mem ((x * B) mod 2 ^ AW).
  Lemma mw_wrap x y : mw (wrap X x + y) = mw (x + y).
  Proof.
    unfold mw, wrap. f_equal. rewrite AWsplit. pose proof Bpos. pose proof (pow2_pos X). rewrite (Nat.mul_comm B), !Nat.mul_mod_distr_r by lia. rewrite Nat.add_mod_idemp_l by lia. reflexivity.
  Qed.
  Lemma item_idx n j : j < ITEMS -> itm (n * ITEMS + j) = mw (ni n + j).
  Proof.
    intros H. unfold item, mw. rewrite Nat.div_add_l, (Nat.div_small j), Nat.add_0_r by lia. rewrite (Nat.add_comm (n * ITEMS)), Nat.mod_add, (Nat.mod_small j) by lia.
    rewrite (proj1 (nd_idx n)), Nat.mul_add_distr_r. reflexivity.
  Qed.
  Lemma next_idx n : ni (S n) = wrap X (mw (ni n + ITEMS) / B).
  Proof.
    pose proof Bpos. unfold ni at 1. cbn [node]. rewrite ptr_idx, Nat.div_mul by lia. rewrite (proj1 (nd_idx n)). unfold mw. rewrite Nat.mul_add_distr_r. reflexivity.
  Qed.
  Lemma ans_eq id x n : ans id (x * B) n = map (fun j => (id, mw (x + j), j =? n)) (seq 0 (S n)).
  Proof. unfold answer. apply map_ext. intros j. unfold mw. rewrite Nat.mul_add_distr_r. reflexivity. Qed.
  Lemma ans_0 id x : ans id (x * B) 0 = [(id, mw x, true)].
  Proof. rewrite ans_eq. cbn. rewrite Nat.add_0_r. reflexivity. Qed.
  Lemma ans_S id x n : ans id (x * B) (S n) = (id, mw x, false) :: ans id (winc X x * B) n.
  Proof.
    rewrite !ans_eq. change (seq 0 (S (S n))) with (0 :: seq 1 (S n)). cbn [map]. rewrite Nat.add_0_r. f_equal. rewrite <- seq_shift, map_map. apply map_ext. intros j. unfold winc. rewrite mw_wrap. replace (x + 1 + j) with (x + S j) by lia. reflexivity.
  Qed.

  (** position: node [n], offset [off] in it *)
  Definition Inv (s : l_st) (due : list (nat * nat * bool)) (W R m a : nat) (q : list nat) : Prop :=
    HRep CAP (l_buf s) q /\ q = map itm (seq m (R - m)) /\ m <= R /\ l_wr s = W mod 2 ^ PW /\ l_rd s = R mod 2 ^ PW /\ W < R + 2 ^ PW /\
    a <= W /\ l_rem s <= ITEMS /\
    exists n off, R = n * ITEMS + off /\ l_base s = wrap X (ni n + off) /\
      if l_pend s then
        exists len, (due = ans ID (l_base s * B) len /\ a = R + S len /\ off + S len + l_rem s = ITEMS) \/
                    (due = ans IDL (l_base s * B) len /\ a = R + len /\ off + len = ITEMS /\ l_rem s = ITEMS)
      else due = [] /\ a = R /\ off + l_rem s = ITEMS.

  Lemma inv_init m0 d0 : Inv (l_init CAP ITEMS m0 d0 b0) [] 0 0 0 0 [].
  Proof.
    split; [apply hrep_init; [lia|left; cbn; lia]|]. cbn. rewrite Nat.mod_0_l by (pose proof (pow2_pos PW); lia). repeat split; try lia. exists 0, 0. split; [reflexivity|]. split; [|repeat split; lia].
    unfold ni. cbn [node]. rewrite Nat.div_mul by (pose proof Bpos; lia). rewrite Nat.add_0_r. symmetry. apply wrap_small. exact Hb0.
  Qed.
  Lemma fwd_ge w v : w <= forward PW w v. Proof. unfold forward. lia. Qed.
  Lemma fwd_mod w v : forward PW w v mod 2 ^ PW = wrap PW v.
  Proof.
    unfold forward, wrap. pose proof (pow2_pos PW). rewrite Nat.add_mod_idemp_r by lia.
    pose proof (Nat.div_mod w (2 ^ PW) ltac:(lia)) as E. pose proof (Nat.mod_upper_bound w (2 ^ PW) ltac:(lia)).
    replace (w + (v mod 2 ^ PW + 2 ^ PW - w mod 2 ^ PW)) with (v mod 2 ^ PW + (w / 2 ^ PW + 1) * 2 ^ PW) by lia. rewrite Nat.mod_add by lia. apply Nat.mod_mod. lia.
  Qed.

  Lemma by_ptrs W R : R <= W -> W < R + 2 ^ PW -> wrap PW (W mod 2 ^ PW + 2 ^ PW - R mod 2 ^ PW) = W - R.
  Proof.
    intros H1 H2. pose proof (pow2_pos PW) as Hp. unfold wrap.
    pose proof (Nat.div_mod W (2 ^ PW) ltac:(lia)) as EW. pose proof (Nat.div_mod R (2 ^ PW) ltac:(lia)) as ER. pose proof (Nat.mod_upper_bound W (2 ^ PW) ltac:(lia)). pose proof (Nat.mod_upper_bound R (2 ^ PW) ltac:(lia)).
    assert (W / 2 ^ PW = R / 2 ^ PW \/ W / 2 ^ PW = R / 2 ^ PW + 1) as [E|E] by nia.
    - replace (W mod 2 ^ PW + 2 ^ PW - R mod 2 ^ PW) with (W - R + 1 * 2 ^ PW) by nia. rewrite Nat.mod_add by lia. apply Nat.mod_small. lia.
    - replace (W mod 2 ^ PW + 2 ^ PW - R mod 2 ^ PW) with (W - R) by nia. apply Nat.mod_small. lia.
  Qed.
  Lemma eq_ptrs W R : R <= W -> W < R + 2 ^ PW -> (W mod 2 ^ PW =? R mod 2 ^ PW) = (W - R =? 0).
  Proof.
    intros H1 H2. destruct (Nat.eqb_spec (W - R) 0) as [E|E].
    - replace W with R by lia. apply Nat.eqb_refl.
    - apply Nat.eqb_neq. intros E2. pose proof (by_ptrs W R H1 H2) as H. rewrite E2 in H. replace (R mod 2 ^ PW + 2 ^ PW - R mod 2 ^ PW) with (0 + 1 * 2 ^ PW) in H by lia. unfold wrap in H. rewrite Nat.mod_add, Nat.mod_0_l in H by (pose proof (pow2_pos PW); lia). lia.
  Qed.
  Lemma rem_pow : ITEMS < 2 ^ rem_w ITEMS. Proof. unfold rem_w. pose proof (log2ceil_ge (ITEMS + 1)). lia. Qed.
  Lemma bst2 : 2 <= bst /\ bst <= CAP. Proof. unfold burst. split; [apply Nat.div_le_lower_bound; lia|apply Nat.div_le_upper_bound; lia]. Qed.
  Lemma len_pow : bst <= 2 ^ llen_w CAP. Proof. unfold llen_w. pose proof (log2ceil_ge (bst - 1 + 1)). pose proof bst2. lia. Qed.
  Lemma wsub w x y : y <= x -> x < 2 ^ w -> wrap w (x + 2 ^ w - y) = x - y.
  Proof. intros. unfold wrap. replace (x + 2 ^ w - y) with (x - y + 1 * 2 ^ w) by lia. rewrite Nat.mod_add by lia. apply Nat.mod_small. lia. Qed.

  (** one request *)
  Lemma req_len W R rem : R < W -> W < R + 2 ^ PW -> rem <= ITEMS ->
    let r := l_req ID IDL CAP ITEMS PW (W - R) rem in
    exists len rem', (r = (ID, len, rem') /\ S len + rem' = rem /\ S len <= W - R) \/ (r = (IDL, len, rem') /\ len = rem /\ rem' = ITEMS /\ len <= W - R).
  Proof.
    intros H1 H2 H3. unfold l_req. cbn zeta. pose proof bst2 as [Hb2 _]. pose proof rem_pow as Hr. pose proof len_pow as Hl. rewrite (wrap_small PW rem) by lia.
    set (cons := if rem <? W - R then rem else W - R).
    assert (cons <= rem /\ cons <= W - R /\ (cons = rem \/ cons = W - R)) as (C1 & C2 & C3) by (subst cons; destruct (Nat.ltb_spec rem (W - R)); lia).
    destruct (Nat.ltb_spec bst cons) as [L|L].
    - exists (bst - 1), (rem - bst). left. rewrite (wrap_small (rem_w ITEMS) bst) by lia. rewrite wsub by lia. split; [reflexivity|]. lia.
    - destruct ((rem <=? wrap (rem_w ITEMS) (W - R)) && (rem <? bst)) eqn:E.
      + apply andb_true_iff in E. destruct E as [E1 E2]. apply Nat.leb_le in E1. apply Nat.ltb_lt in E2. exists rem, ITEMS. right.
        assert (rem <= W - R) as E3. { unfold wrap in E1. pose proof (Nat.mod_le (W - R) (2 ^ rem_w ITEMS)). lia. }
        assert (cons = rem) as -> by (subst cons; destruct (Nat.ltb_spec rem (W - R)); lia). rewrite wrap_small by lia. auto.
      + assert (1 <= cons) as C4. { destruct C3 as [->| ->]; [|lia]. destruct rem; [|lia]. exfalso. cbn [Nat.leb andb] in E. apply Nat.ltb_ge in E. lia. }
        exists (cons - 1), (rem - cons). left. rewrite wdec_pos by lia. rewrite wrap_small by lia. rewrite (wrap_small (rem_w ITEMS) cons) by lia. rewrite wsub by lia. split; [reflexivity|]. lia.
  Qed.

  Notation nexts := (flat_map (fun r => let '(id, a, n) := r in ans id a n)).
  Lemma map_snoc_seq m R : m <= R -> map itm (seq m (R - m)) ++ [itm R] = map itm (seq m (S R - m)).
  Proof. intros H. replace (S R - m) with (S (R - m)) by lia. rewrite seq_S, map_app. cbn. replace (m + (R - m)) with R by lia. reflexivity. Qed.

  Ltac nlia := repeat match goal with
    | H : ?T |- _ => lazymatch T with | context [Nat.modulo _ _] => clear H | context [Nat.mul _ _] => clear H | context [andb _ _] => clear H | context [l_wr] => clear H | context [wrap _ _] => clear H | _ <= _ => fail | _ < _ => fail | @eq nat _ _ => fail | _ <> _ => fail | nat => fail | _ => clear H end end; lia.
  Lemma inv_step s due W R m a q i : Inv s due W R m a q -> s_base i = None -> s_rd i = None ->
    (r_v i = true -> exists due', due = (r_id i, r_d i, r_l i) :: due') ->
    next_ann PW W i < R + 2 ^ PW ->
    let o := snd (step s i) in let c := (i, o) in
    (exists q', Inv (fst (step s i)) ((if took c then tl due else due) ++ nexts (requests [c])) (next_ann PW W i) (R + if took_item IDL c then 1 else 0)
      (m + if d_v o && d_rd i then 1 else 0) (a + asked IDL [c]) q') /\
    (d_v o = true -> d_d o = itm m).
  Proof.
    intros (HR & Hq & HmR & Hwr & Hrd & HW & Ha & Hrem & n & off & HRn & Hbase & HF) Hsb Hsr Hh Hf.
    pose proof (hrep_step CAP ltac:(lia) _ _ (mk_hin (r_v i && ((r_id i =? ID) || (negb (r_l i) && (r_id i =? IDL))) && l_pend s) (r_d i) (d_rd i)) HR) as HS. cbn zeta in HS.
    destruct HS as (HS1 & HS2 & _ & _ & HS5 & _).
    assert (R <= W) as HRW. { destruct (l_pend s); [destruct HF as (len & [(_ & E & _)|(_ & E & _)]); lia|lia]. }
    assert (next_ann PW W i mod 2 ^ PW = match s_wr i with Some v => wrap PW v | None => l_wr s end /\ W <= next_ann PW W i) as [Hw' HwW].
    { unfold next_ann. destruct (s_wr i) as [v|]; [split; [apply fwd_mod|apply fwd_ge]|split; [symmetry; exact Hwr|nlia]]. }
    set (W' := next_ann PW W i) in *.
    cbn zeta. unfold asked, requests, took_item, took, l_step.
    destruct (hsf_step CAP (l_buf s) (mk_hin (r_v i && ((r_id i =? ID) || (negb (r_l i) && (r_id i =? IDL))) && l_pend s) (r_d i) (d_rd i))) as [buf' bo] eqn:E.
    cbn [fst snd i_vld i_data i_rd] in *. cbn zeta.
    assert (d_v_ok : h_vld bo = true -> h_data bo = itm m /\ m < R).
    { intros Hv. destruct (HS2 Hv) as [q' Eq]. rewrite Hq in Eq. destruct (R - m) eqn:Er; [discriminate|]. cbn in Eq. injection Eq as <- _. split; [reflexivity|nlia]. }
    assert (tlq : h_vld bo = true -> tl q = map itm (seq (m + 1) (R - (m + 1)))).
    { intros Hv. destruct (d_v_ok Hv) as [_ L]. rewrite Hq. replace (R - m) with (S (R - (m + 1))) by nlia. cbn. rewrite Nat.add_1_r. reflexivity. }
    rewrite Hwr, Hrd, (by_ptrs W R HRW HW), (eq_ptrs W R HRW HW). fold al B.
    set (rr := l_req ID IDL CAP ITEMS PW (W - R) (l_rem s)).
    destruct (l_pend s) eqn:Ep.
    - (* a download is in progress *)
      rewrite ?andb_true_r. cbn [negb andb]. rewrite ?andb_false_r. cbn [andb].
      destruct rr as [[rid rlen] rrem]. cbn [fst snd d_v d_d took r_r took_item requests asked flat_map map list_sum fold_right q_v q_rd app].
      rewrite Hsb, Hsr. rewrite ?andb_true_r, ?app_nil_r, ?Nat.add_0_r.
      split; [|apply d_v_ok].
      set (mine := (r_id i =? ID) || (negb (r_l i) && (r_id i =? IDL))) in *.
      destruct HF as (len & HF).
      destruct (r_v i) eqn:Ev.
      2:{ cbn [andb]. exists ((if h_vld bo && d_rd i then tl q else q) ++ []). unfold Inv. cbn [l_buf l_pend l_base l_rem l_rd l_wr andb negb] in *.
          split; [exact HS1|]. split; [rewrite app_nil_r; destruct (h_vld bo && d_rd i) eqn:Ed; [apply andb_true_iff in Ed; rewrite (tlq (proj1 Ed)); f_equal; f_equal; nlia|rewrite Hq; f_equal; f_equal; nlia]|].
          split; [destruct (h_vld bo && d_rd i) eqn:Ed; [apply andb_true_iff in Ed; destruct (d_v_ok (proj1 Ed)); nlia|nlia]|].
          split; [rewrite Hw'; destruct (s_wr i); congruence|]. rewrite Nat.add_0_r. split; [reflexivity|]. split; [exact Hf|]. split; [nlia|]. split; [exact Hrem|].
          exists n, off. split; [exact HRn|]. split; [exact Hbase|]. exists len. exact HF. }
      destruct (Hh eq_refl) as [due' Hdue].
      assert (Hids : (r_id i =? ID) || (r_id i =? IDL) = true).
      { destruct HF as [(Hd & _)|(Hd & _)]; rewrite Hdue in Hd; destruct len; rewrite ?ans_0, ?ans_S in Hd; injection Hd as -> _ _ _; rewrite Nat.eqb_refl, ?orb_true_r; reflexivity. }
      rewrite Hids. cbn [andb].
      destruct (h_rd bo) eqn:Eh.
      2:{ cbn [andb negb]. rewrite ?andb_false_r in *. exists ((if h_vld bo && d_rd i then tl q else q) ++ []). unfold Inv. cbn [l_buf l_pend l_base l_rem l_rd l_wr andb negb] in *.
          split; [exact HS1|]. split; [rewrite app_nil_r; destruct (h_vld bo && d_rd i) eqn:Ed; [apply andb_true_iff in Ed; rewrite (tlq (proj1 Ed)); f_equal; f_equal; nlia|rewrite Hq; f_equal; f_equal; nlia]|].
          split; [destruct (h_vld bo && d_rd i) eqn:Ed; [apply andb_true_iff in Ed; destruct (d_v_ok (proj1 Ed)); nlia|nlia]|].
          split; [rewrite Hw'; destruct (s_wr i); congruence|]. rewrite Nat.add_0_r. split; [reflexivity|]. split; [exact Hf|]. split; [nlia|]. split; [exact Hrem|].
          exists n, off. split; [exact HRn|]. split; [exact Hbase|]. exists len. exact HF. }
      cbn [andb] in *. rewrite Hdue. cbn [tl].
      assert (Hbase1 : winc X (l_base s) = wrap X (ni n + (off + 1))).
      { rewrite Hbase. unfold winc, wrap. pose proof (pow2_pos X). rewrite Nat.add_mod_idemp_l by nlia. f_equal. nlia. }
      assert (Hrd1 : winc PW (R mod 2 ^ PW) = (R + 1) mod 2 ^ PW).
      { unfold winc, wrap. pose proof (pow2_pos PW). rewrite Nat.add_mod_idemp_l by nlia. reflexivity. }
      assert (Hmw : mw (l_base s) = mw (ni n + off)). { rewrite Hbase. pose proof (mw_wrap (ni n + off) 0) as H. rewrite !Nat.add_0_r in H. exact H. }
      (* common part: an item was taken *)
      assert (Item : mine = true -> r_l i && (r_id i =? IDL) = false -> off < ITEMS -> r_d i = mw (l_base s) ->
        forall (base1 rem1 : nat) (pend1 : bool), l_rem s = rem1 -> base1 = winc X (l_base s) -> forall (dd : list (nat * nat * bool)) (aa : nat),
        (if pend1 then exists len, (dd = ans ID (base1 * B) len /\ aa = R + 1 + S len /\ off + 1 + S len + rem1 = ITEMS) \/ (dd = ans IDL (base1 * B) len /\ aa = R + 1 + len /\ off + 1 + len = ITEMS /\ rem1 = ITEMS)
         else dd = [] /\ aa = R + 1 /\ off + 1 + rem1 = ITEMS) -> aa = a ->
        exists q', Inv (mk_l buf' pend1 base1 rem1 (winc PW (R mod 2 ^ PW)) (match s_wr i with Some v => wrap PW v | None => W mod 2 ^ PW end)) dd W' (R + 1) (m + if h_vld bo && d_rd i then 1 else 0) aa q').
      { intros M1 M2 Ho Hd base1 rem1 pend1 <- -> dd aa HH ->. rewrite M1 in HS1. eexists. split; [exact HS1|]. cbn [l_buf l_pend l_base l_rem l_rd l_wr].
        assert (r_d i = itm R) as HdR. { rewrite Hd, Hmw, HRn. symmetry. apply item_idx. exact Ho. }
        split. { cbn [andb]. rewrite HdR. destruct (h_vld bo && d_rd i) eqn:Ed.
          - apply andb_true_iff in Ed. rewrite (tlq (proj1 Ed)). destruct (d_v_ok (proj1 Ed)). rewrite map_snoc_seq by nlia. f_equal. f_equal. nlia.
          - rewrite Hq, map_snoc_seq by nlia. f_equal. f_equal; nlia. }
        split; [destruct (h_vld bo && d_rd i) eqn:Ed; [apply andb_true_iff in Ed; destruct (d_v_ok (proj1 Ed)); nlia|nlia]|].
        split; [rewrite Hw'; destruct (s_wr i); congruence|]. split; [exact Hrd1|]. split; [nlia|]. split; [nlia|]. split; [exact Hrem|].
        exists n, (off + 1). split; [clear - HRn; lia|]. split; [rewrite Hbase1; reflexivity|]. exact HH. }
      destruct HF as [(Hd & Ea & Eo)|(Hd & Ea & Eo & Er)]; rewrite Hdue in Hd.
      + destruct len as [|len]; [rewrite ans_0 in Hd|rewrite ans_S in Hd]; injection Hd as H1 H2 H3 H4; subst mine; rewrite H1, H3 in *; cbn [negb andb orb] in *;
          rewrite ?Nat.eqb_refl in *; rewrite ?(proj2 (Nat.eqb_neq _ _) Hid) in *; cbn [negb andb orb] in *.
        * apply Item; auto; try nlia; try (cbn [negb]; rewrite H4; split; [reflexivity|]; nlia).
        * apply Item; auto; try nlia; try (cbn [negb]; exists len; left; split; [exact H4|]; nlia).
      + destruct len as [|len]; [rewrite ans_0 in Hd|rewrite ans_S in Hd]; injection Hd as H1 H2 H3 H4; subst mine; rewrite H1, H3 in *; cbn [negb andb orb] in *;
          rewrite ?Nat.eqb_refl in *; assert (IDL =? ID = false) as Hne by (apply Nat.eqb_neq; auto); rewrite Hne in *; cbn [negb andb orb] in *.
        * (* the pointer to the next node *)
          exists ((if h_vld bo && d_rd i then tl q else q) ++ []). unfold Inv. cbn [l_buf l_pend l_base l_rem l_rd l_wr negb].
          split; [exact HS1|]. split; [rewrite app_nil_r; destruct (h_vld bo && d_rd i) eqn:Ed; [apply andb_true_iff in Ed; rewrite (tlq (proj1 Ed)); f_equal; f_equal; nlia|rewrite Hq; f_equal; f_equal; nlia]|].
          split; [destruct (h_vld bo && d_rd i) eqn:Ed; [apply andb_true_iff in Ed; destruct (d_v_ok (proj1 Ed)); nlia|nlia]|].
          split; [rewrite Hw'; destruct (s_wr i); congruence|]. rewrite Nat.add_0_r. split; [reflexivity|]. split; [exact Hf|]. split; [nlia|]. split; [exact Hrem|].
          exists (S n), 0. split; [clear - HRn Eo; lia|]. split; [|split; [exact H4|split; nlia]]. rewrite H2, Hmw. replace off with ITEMS by nlia. unfold idx_w. fold al X. rewrite <- next_idx, Nat.add_0_r. symmetry. apply wrap_small. apply nd_idx.
        * apply Item; auto; try nlia; try (cbn [negb]; exists len; right; split; [exact H4|]; nlia).
    - (* no download *)
      destruct HF as (-> & -> & HF). rewrite ?andb_false_r in *. cbn [negb andb] in *.
      assert (Ev : r_v i = false). { destruct (r_v i); [|reflexivity]. destruct (Hh eq_refl) as [d H]. discriminate H. }
      rewrite Ev. cbn [andb]. rewrite Hsb, Hsr.
      set (sp := h_size bo <? burst CAP + 1) in *.
      destruct (Nat.eqb_spec (W - R) 0) as [E0|E0].
      + destruct rr as [[rid rlen] rrem]. cbn [negb andb]. rewrite ?andb_false_r. cbn [andb]. cbn [fst snd d_v d_d took r_r r_v took_item requests asked flat_map map list_sum fold_right q_v q_rd app]. rewrite ?Ev. cbn [andb app]. rewrite ?Nat.add_0_r. split; [|apply d_v_ok].
        exists ((if h_vld bo && d_rd i then tl q else q) ++ []). unfold Inv. cbn [l_buf l_pend l_base l_rem l_rd l_wr andb negb] in *.
        split; [rewrite ?Ev in HS1; exact HS1|]. split; [rewrite app_nil_r; destruct (h_vld bo && d_rd i) eqn:Ed; [apply andb_true_iff in Ed; rewrite (tlq (proj1 Ed)); f_equal; f_equal; nlia|rewrite Hq; f_equal; f_equal; nlia]|].
        split; [destruct (h_vld bo && d_rd i) eqn:Ed; [apply andb_true_iff in Ed; destruct (d_v_ok (proj1 Ed)); nlia|nlia]|].
        split; [rewrite Hw'; destruct (s_wr i); congruence|]. split; [reflexivity|]. split; [exact Hf|]. split; [nlia|]. split; [exact Hrem|].
        exists n, off. split; [exact HRn|]. split; [exact Hbase|]. split; [reflexivity|]. nlia.
      + destruct (req_len W R (l_rem s) ltac:(lia) HW Hrem) as (len & rem' & HL). cbn zeta in HL.
        fold rr in HL.
        destruct rr as [[rid rlen] rrem]. cbn [negb andb]. rewrite ?andb_true_r.
        cbn [fst snd d_v d_d took r_r r_v took_item requests asked flat_map map list_sum fold_right q_v q_rd q_id q_addr q_len app]. rewrite ?Ev. cbn [andb app]. rewrite (Nat.add_0_r R). split; [|apply d_v_ok].
        rewrite (andb_comm (q_rd i)). destruct (sp && q_rd i) eqn:Eq.
        * cbn [app flat_map]. rewrite app_nil_r.
          exists ((if h_vld bo && d_rd i then tl q else q) ++ []). unfold Inv. cbn [l_buf l_pend l_base l_rem l_rd l_wr andb negb] in *.
          split; [rewrite ?Ev in HS1; exact HS1|]. split; [rewrite app_nil_r; destruct (h_vld bo && d_rd i) eqn:Ed; [apply andb_true_iff in Ed; rewrite (tlq (proj1 Ed)); f_equal; f_equal; nlia|rewrite Hq; f_equal; f_equal; nlia]|].
          split; [destruct (h_vld bo && d_rd i) eqn:Ed; [apply andb_true_iff in Ed; destruct (d_v_ok (proj1 Ed)); nlia|nlia]|].
          split; [rewrite Hw'; destruct (s_wr i); congruence|]. split; [reflexivity|]. split; [exact Hf|]. cbn [map list_sum fold_right]. rewrite Nat.add_0_r.
          assert (IDL =? ID = false) as Hne by (apply Nat.eqb_neq; auto). assert (ID =? IDL = false) as Hne2 by (apply Nat.eqb_neq; auto).
          destruct HL as [(Hr & L1 & L2)|(Hr & L1 & L2 & L3)]; injection Hr as -> -> ->.
          -- rewrite Hne2. split; [nlia|]. split; [nlia|]. exists n, off. split; [exact HRn|]. split; [exact Hbase|]. exists len. left. split; [reflexivity|]. nlia.
          -- rewrite Nat.eqb_refl. split; [nlia|]. split; [nlia|]. exists n, off. split; [exact HRn|]. split; [exact Hbase|]. exists len. right. split; [reflexivity|]. nlia.
        * cbn [app flat_map]. exists ((if h_vld bo && d_rd i then tl q else q) ++ []). unfold Inv. cbn [l_buf l_pend l_base l_rem l_rd l_wr andb negb map list_sum fold_right] in *.
          split; [rewrite ?Ev in HS1; exact HS1|]. split; [rewrite app_nil_r; destruct (h_vld bo && d_rd i) eqn:Ed; [apply andb_true_iff in Ed; rewrite (tlq (proj1 Ed)); f_equal; f_equal; nlia|rewrite Hq; f_equal; f_equal; nlia]|].
          split; [destruct (h_vld bo && d_rd i) eqn:Ed; [apply andb_true_iff in Ed; destruct (d_v_ok (proj1 Ed)); nlia|nlia]|].
          split; [rewrite Hw'; destruct (s_wr i); congruence|]. split; [reflexivity|]. split; [exact Hf|]. split; [nlia|]. split; [exact Hrem|].
          exists n, off. split; [exact HRn|]. split; [exact Hbase|]. split; [reflexivity|]. nlia.
  Qed.

  Lemma run_law is : forall s due W R m a q, Inv s due W R m a q -> keeps is ->
    let t := trace step s is in honest mem B AW due t -> fits IDL PW W R t ->
    received t = map itm (seq m (length (received t))) /\
    exists q' R', Inv (final step s is) (due_after mem B AW due t) (announced PW W t) R' (m + length (received t)) (a + asked IDL t) q' /\ R <= R'.
  Proof.
    induction is as [|i is IH]; intros s due W R m a q H Hk t Hh Hf.
    - subst t. split; [reflexivity|]. exists q, R. cbn. rewrite !Nat.add_0_r. auto.
    - subst t. rewrite trace_cons, final_cons in *. inversion Hk as [|? ? [Hk1 Hk2] Hk']; subst. cbn [honest fits fst snd] in Hh, Hf. destruct Hh as [Hh1 Hh2]. destruct Hf as [Hf1 Hf2].
      destruct (inv_step s due W R m a q i H Hk1 Hk2 Hh1 Hf1) as [(q' & HI') Hd].
      set (o := snd (step s i)) in *. set (t := trace step (fst (step s i)) is) in *.
      destruct (IH _ _ _ _ _ _ _ HI' Hk' Hh2 Hf2) as (E1 & q2 & R2 & HI2 & HR2). fold t in E1, HI2.
      assert (received ((i, o) :: t) = (if d_v o && d_rd i then [d_d o] else []) ++ received t) as Er by reflexivity.
      assert (asked IDL ((i, o) :: t) = asked IDL [(i, o)] + asked IDL t) as Ea.
      { unfold asked. change (requests ((i, o) :: t)) with (requests [(i, o)] ++ requests t) at 1 || (unfold requests; cbn [flat_map]; rewrite app_nil_r). rewrite map_app, list_sum_app. reflexivity. }
      rewrite Er, Ea. cbn [announced due_after fst]. split.
      + destruct (d_v o && d_rd i) eqn:Ed.
        * apply andb_true_iff in Ed. cbn [app length seq map]. rewrite (Hd (proj1 Ed)). f_equal. rewrite <- (Nat.add_1_r m). exact E1.
        * cbn [app length]. rewrite Nat.add_0_r in E1. exact E1.
      + exists q2, R2. split; [|lia]. rewrite app_length, (Nat.add_assoc a). replace (m + (length (if d_v o && d_rd i then [d_d o] else []) + length (received t))) with (m + (if d_v o && d_rd i then 1 else 0) + length (received t)) by (destruct (d_v o && d_rd i); cbn; lia). exact HI2.
  Qed.

  (** progress *)
  Definition nextonly (due : list (nat * nat * bool)) : bool := match due with [(id, _, true)] => id =? IDL | _ => false end.
  Definition rank (s : l_st) (due : list (nat * nat * bool)) (m R : nat) : nat :=
    if m <? R then (if ovld (l_buf s) then 1 else 2)
    else if l_pend s then (if nextonly due then 5 else 3) else (if l_rem s =? 0 then 6 else 4).

  Lemma rank_step s due W R m a q i : Inv s due W R m a q -> s_base i = None -> s_rd i = None -> m < W ->
    (r_v i = true -> exists due', due = (r_id i, r_d i, r_l i) :: due') ->
    q_rd i = true -> d_rd i = true -> (due <> [] -> r_v i = true) ->
    let o := snd (step s i) in let c := (i, o) in
    d_v o = true \/
    rank (fst (step s i)) ((if took c then tl due else due) ++ nexts (requests [c])) m (R + if took_item IDL c then 1 else 0) < rank s due m R.
  Proof.
    intros (HR & Hq & HmR & Hwr & Hrd & HW & Ha & Hrem & n & off & HRn & Hbase & HF) Hsb Hsr HmW Hh Hqr Hdr Hs.
    pose proof (hrep_step CAP ltac:(lia) _ _ (mk_hin (r_v i && ((r_id i =? ID) || (negb (r_l i) && (r_id i =? IDL))) && l_pend s) (r_d i) (d_rd i)) HR) as HS. cbn zeta in HS.
    destruct HS as (_ & HS2 & _ & HS4 & HS5 & _ & HS7 & _).
    pose proof (step_out CAP (l_buf s) (mk_hin (r_v i && ((r_id i =? ID) || (negb (r_l i) && (r_id i =? IDL))) && l_pend s) (r_d i) (d_rd i))) as Eo.
    assert (R <= W) as HRW. { destruct (l_pend s); [destruct HF as (len & [(_ & E & _)|(_ & E & _)]); lia|lia]. }
    cbn zeta. unfold rank, requests, took_item, took, l_step.
    destruct (hsf_step CAP (l_buf s) (mk_hin (r_v i && ((r_id i =? ID) || (negb (r_l i) && (r_id i =? IDL))) && l_pend s) (r_d i) (d_rd i))) as [buf' bo] eqn:E.
    cbn [fst snd i_vld i_data i_rd] in *. cbn zeta.
    assert (h_vld bo = ovld (l_buf s)) as Ev by (rewrite Eo; reflexivity). clear Eo.
    rewrite Hwr, Hrd, (by_ptrs W R HRW HW), (eq_ptrs W R HRW HW). fold al B.
    set (rr := l_req ID IDL CAP ITEMS PW (W - R) (l_rem s)).
    destruct (h_vld bo) eqn:Evv; [left; destruct rr as [[? ?] ?]; reflexivity|right]. rewrite <- Ev.
    destruct (Nat.ltb_spec m R) as [L|L].
    - assert (q <> []) as Hqn. { rewrite Hq. destruct (R - m) eqn:Er; [nlia|discriminate]. }
      specialize (HS7 eq_refl Hqn). destruct rr as [[rid rlen] rrem]. cbn [fst snd l_buf]. rewrite HS7.
      match goal with |- context [m <? R + ?x] => assert (m <? R + x = true) as -> by (apply Nat.ltb_lt; nlia) end. nlia.
    - assert (m = R) as Hm by nlia. subst m. assert (q = []) as Hq0 by (rewrite Hq, Nat.sub_diag; reflexivity). rewrite Hq0 in HS4, HS5. cbn [length] in HS4, HS5.
      rewrite HS4 by nlia. rewrite HS5. pose proof bst2 as [Hb2 _]. assert (0 <? burst CAP + 1 = true) as -> by (apply Nat.ltb_lt; nlia).
      destruct (l_pend s) eqn:Ep.
      + destruct rr as [[rid rlen] rrem]. cbn [fst snd negb andb r_r q_v q_rd l_pend l_rem l_buf app]. rewrite ?andb_false_r. cbn [andb app flat_map]. rewrite ?app_nil_r, ?andb_true_r.
        destruct HF as (len & HF). assert (due <> []) as Hdn by (destruct HF as [(-> & _)|(-> & _)]; discriminate). rewrite (Hs Hdn) in *. destruct (Hh eq_refl) as [due' Hdue]. cbn [andb].
        destruct HF as [(Hd & Ea & Eo)|(Hd & Ea & Eo & Er)]; rewrite Hdue in Hd |- *.
        * destruct len as [|len]; [rewrite ans_0 in Hd|rewrite ans_S in Hd]; injection Hd as H1 H2 H3 H4; rewrite H1, H3; assert (ID =? IDL = false) as Hne by (apply Nat.eqb_neq; auto); rewrite ?Hne, ?andb_false_r; cbn [negb andb nextonly]; rewrite ?Hne;
            assert (R <? R + 1 = true) as -> by (apply Nat.ltb_lt; nlia); destruct due'; destruct (ovld buf'); nlia.
        * destruct len as [|len]; [rewrite ans_0 in Hd|rewrite ans_S in Hd]; injection Hd as H1 H2 H3 H4; rewrite H1, H3; rewrite ?Nat.eqb_refl, ?orb_true_r; cbn [negb andb nextonly tl].
          -- rewrite Nat.add_0_r, Nat.ltb_irrefl. rewrite Er, H4, Nat.eqb_refl. destruct (Nat.eqb_spec ITEMS 0); nlia.
          -- assert (R <? R + 1 = true) as -> by (apply Nat.ltb_lt; nlia). destruct due'; destruct (ovld buf'); nlia.
      + destruct HF as (-> & -> & HF). assert (r_v i = false) as Erv. { destruct (r_v i); [destruct (Hh eq_refl) as [d H]; discriminate H|reflexivity]. }
        destruct (req_len W R (l_rem s) ltac:(lia) HW Hrem) as (len & rem' & HL). cbn zeta in HL. fold rr in HL.
        destruct (Nat.eqb_spec (W - R) 0) as [E0|E0]; [nlia|].
        destruct rr as [[rid rlen] rrem]. cbn [fst snd negb andb r_r q_v q_rd q_id q_addr q_len l_pend l_rem l_buf app]. rewrite Erv. cbn [flat_map fst snd q_v q_id q_addr q_len andb app]. rewrite Hqr. cbn [andb app flat_map]. rewrite app_nil_r, Nat.add_0_r, Nat.ltb_irrefl.
        destruct HL as [(Hr & L1 & L2)|(Hr & L1 & L2 & L3)]; injection Hr as -> -> ->.
        * assert (nextonly (ans ID (l_base s * B) len) = false) as ->. { destruct len; [rewrite ans_0|rewrite ans_S]; cbn [nextonly]; [apply Nat.eqb_neq; auto|]. reflexivity. }
          destruct (Nat.eqb_spec (l_rem s) 0); nlia.
        * destruct (Nat.eqb_spec (l_rem s) 0) as [Z|Z]; [destruct (nextonly _); nlia|]. destruct len; [nlia|]. rewrite ans_S. cbn [nextonly]. nlia.
  Qed.

  Lemma prog is : forall s due W R m a q, Inv s due W R m a q -> keeps is -> m < W ->
    let t := trace step s is in honest mem B AW due t -> fits IDL PW W R t -> serves mem B AW due t -> rank s due m R <= length is -> received t <> [].
  Proof.
    induction is as [|i is IH]; intros s due W R m a q H Hk HmW t Hh Hf Hs Hr.
    - exfalso. cbn in Hr. unfold rank in Hr. destruct (m <? R), (ovld (l_buf s)), (l_pend s), (nextonly due), (l_rem s =? 0); lia.
    - subst t. rewrite trace_cons in *. inversion Hk as [|? ? [Hk1 Hk2] Hk']; subst. cbn [honest fits serves fst snd] in Hh, Hf, Hs. destruct Hh as [Hh1 Hh2]. destruct Hf as [Hf1 Hf2]. destruct Hs as [(Hs1 & Hs2 & Hs3) Hs4].
      destruct (inv_step s due W R m a q i H Hk1 Hk2 Hh1 Hf1) as [(q' & HI') Hd].
      pose proof (rank_step s due W R m a q i H Hk1 Hk2 HmW Hh1 Hs1 Hs2 Hs3) as HR. cbn zeta in HR.
      set (o := snd (step s i)) in *.
      change (received ((i, o) :: trace step (fst (step s i)) is)) with ((if d_v o && d_rd i then [d_d o] else []) ++ received (trace step (fst (step s i)) is)).
      rewrite Hs2 in *. rewrite andb_true_r in *. destruct (d_v o) eqn:Ed; [discriminate|]. destruct HR as [HR|HR]; [discriminate|]. cbn [app]. rewrite Nat.add_0_r in HI'.
      eapply IH; [exact HI'|exact Hk'| |exact Hh2|exact Hf2|exact Hs4|cbn in Hr; lia].
      unfold next_ann. destruct (s_wr i) as [v|]; [pose proof (fwd_ge W v); lia|exact HmW].
  Qed.
End P.

Lemma al_pow a : 1 <= a -> l_al (8 * 2 ^ a) = a.
Proof.
  intros H. unfold l_al. rewrite Nat.mul_comm, Nat.div_mul by lia. unfold log2ceil. assert (2 <= 2 ^ a) as Hp by (destruct a; [lia|]; cbn [Nat.pow]; pose proof (pow2_pos a); lia).
  destruct (Nat.leb_spec (2 ^ a) 1); [lia|]. apply Nat.log2_up_pow2. lia.
Qed.

Section Top.
  Variables ID IDL CAP ITEMS AW a PW : nat.
  Variable mem : nat -> nat.
  Hypothesis Hid : ID <> IDL.
  Hypothesis HC : 4 <= CAP.
  Hypothesis HI : 1 <= ITEMS.
  Hypothesis HP : ITEMS < 2 ^ PW.
  Hypothesis Ha : 1 <= a <= AW.
  Notation step := (l_step ID IDL CAP ITEMS AW (8 * 2 ^ a) PW).
  Notation init := (l_init CAP ITEMS).
  Definition nobase (i : l_in) : l_in := mk_li (r_v i) (r_id i) (r_d i) (r_l i) (q_rd i) (d_rd i) None (s_rd i) (s_wr i).
  Lemma W8 : 8 * 2 ^ a / 8 = 2 ^ a. Proof. rewrite Nat.mul_comm. apply Nat.div_mul. lia. Qed.

  Section Run.
    Variables (m0 : nat -> nat) (d0 b0 : nat) (i0 : l_in) (base : nat).
    Hypothesis Hv : s_base i0 = Some base.
    Hypothesis Hr : s_rd i0 = None.
    Hypothesis Hb : base < 2 ^ AW.
    Hypothesis Hm : base mod 2 ^ a = 0.
    Let b := base / 2 ^ a.
    Lemma b_lt : b < 2 ^ (AW - a).
    Proof. apply Nat.div_lt_upper_bound; [apply Nat.pow_nonzero; lia|]. rewrite <- Nat.pow_add_r. replace (a + (AW - a)) with AW by lia. exact Hb. Qed.
    Lemma b_mul : b * 2 ^ a = base.
    Proof. pose proof (Nat.div_mod base (2 ^ a) (Nat.pow_nonzero 2 a ltac:(lia))) as H. rewrite Hm in H. unfold b. lia. Qed.
    Lemma first : let s := init m0 d0 b0 in let o := snd (step s i0) in let s' := init m0 d0 b in let o' := snd (step s' (nobase i0)) in
      fst (step s i0) = fst (step s' (nobase i0)) /\ q_v o = false /\ q_v o' = false /\ d_v o = d_v o' /\ d_d o = d_d o' /\ r_r o = r_r o'.
    Proof.
      cbn zeta. unfold l_step, nobase. cbn [r_v r_id r_d r_l q_rd d_rd s_base s_rd s_wr]. unfold l_init. cbn [l_buf l_pend l_base l_rem l_rd l_wr]. rewrite !andb_false_r.
      destruct (hsf_step CAP (hsf_init CAP [] m0 d0) _) as [buf' bo]. cbn zeta. rewrite Nat.eqb_refl. cbn [negb andb]. rewrite ?andb_false_r.
      destruct (l_req ID IDL CAP ITEMS PW _ ITEMS) as [[? ?] ?]. cbn [fst snd q_v d_v d_d r_r]. rewrite Hv, Hr. cbn [andb]. rewrite ?andb_false_r. split; [|auto 10]. f_equal.
      unfold idx_w. rewrite al_pow by lia. apply wrap_small. apply b_lt.
    Qed.
    Lemma tail_eq is : let t := trace step (init m0 d0 b0) (i0 :: is) in let t' := trace step (init m0 d0 b) (nobase i0 :: is) in
      received t = received t' /\ asked IDL t = asked IDL t' /\ (forall w, announced PW w t = announced PW w t') /\ (forall B AW due, honest mem B AW due t -> honest mem B AW due t') /\
      (forall w r, fits IDL PW w r t -> fits IDL PW w r t') /\ (forall B AW due, due_after mem B AW due t = due_after mem B AW due t') /\ final step (init m0 d0 b0) (i0 :: is) = final step (init m0 d0 b) (nobase i0 :: is).
    Proof.
      cbn zeta. destruct first as (E1 & E2 & E3 & E4 & E5 & E6). rewrite !trace_cons, !final_cons. rewrite E1.
      set (o := snd (step (init m0 d0 b0) i0)) in *. set (o' := snd (step (init m0 d0 b) (nobase i0))) in *. set (t := trace step (fst (step (init m0 d0 b) (nobase i0))) is).
      assert (requests [(i0, o)] = []) as R1 by (unfold requests; cbn [flat_map fst snd]; rewrite E2; reflexivity).
      assert (requests [(nobase i0, o')] = []) as R2 by (unfold requests; cbn [flat_map fst snd]; rewrite E3; reflexivity).
      assert (took (i0, o) = took (nobase i0, o')) as T1 by (unfold took; cbn [fst snd nobase r_v]; rewrite E6; reflexivity).
      assert (took_item IDL (i0, o) = took_item IDL (nobase i0, o')) as T2 by (unfold took_item; rewrite T1; reflexivity).
      split; [|split; [|split; [|split; [|split; [|split]]]]].
      - unfold received. cbn [flat_map fst snd nobase d_rd]. rewrite E4, E5. reflexivity.
      - unfold asked, requests. cbn [flat_map fst snd]. rewrite E2, E3. reflexivity.
      - intros w. reflexivity.
      - intros B AW' due. cbn [honest fst snd nobase r_v r_id r_d r_l]. rewrite R1, R2, T1. auto.
      - intros w r. cbn [fits fst snd]. rewrite T2. auto.
      - intros B AW' due. cbn [due_after]. rewrite R1, R2, T1. reflexivity.
      - reflexivity.
    Qed.
    Lemma kb is : keeps is -> keeps (nobase i0 :: is). Proof. intros H. constructor; [split; [reflexivity|exact Hr]|exact H]. Qed.

    Lemma top_inv is : keeps is ->
      let t := trace step (init m0 d0 b0) (i0 :: is) in honest mem (8 * 2 ^ a / 8) AW [] t -> fits IDL PW 0 0 t ->
      received t = map (item mem (8 * 2 ^ a / 8) AW ITEMS base) (seq 0 (length (received t))) /\
      exists q R, Inv ID IDL CAP ITEMS AW (8 * 2 ^ a) PW mem b (final step (init m0 d0 b0) (i0 :: is)) (due_after mem (8 * 2 ^ a / 8) AW [] t) (announced PW 0 t) R (length (received t)) (asked IDL t) q.
    Proof.
      intros Hk t Hh Hf. subst t. destruct (tail_eq is) as (E1 & E2 & E3 & E4 & E5 & E6 & E7). apply E4 in Hh. apply E5 in Hf. rewrite E1, E2, E3, E6, E7. rewrite W8 in *.
      pose proof (run_law ID IDL CAP ITEMS AW (8 * 2 ^ a) PW mem) as L. rewrite (al_pow a) in L by lia.
      specialize (L Hid HC HI HP ltac:(lia) b b_lt (nobase i0 :: is) _ [] 0 0 0 0 [] (inv_init ID IDL CAP ITEMS AW (8 * 2 ^ a) PW mem Hid HC HI HP ltac:(rewrite (al_pow a) by lia; lia) b ltac:(rewrite (al_pow a) by lia; apply b_lt) m0 d0) (kb is Hk) Hh Hf).
      rewrite b_mul in L. cbn [plus] in L. destruct L as (L1 & q & R & L2 & _). split; [exact L1|]. exists q, R. exact L2.
    Qed.
    Lemma t93_items is : keeps is ->
      let t := trace step (init m0 d0 b0) (i0 :: is) in honest mem (8 * 2 ^ a / 8) AW [] t -> fits IDL PW 0 0 t ->
      received t = map (item mem (8 * 2 ^ a / 8) AW ITEMS base) (seq 0 (length (received t))) /\
      length (received t) <= asked IDL t /\ asked IDL t <= announced PW 0 t.
    Proof.
      intros Hk t Hh Hf. destruct (top_inv is Hk Hh Hf) as (E & q & R & HI'). split; [exact E|]. destruct HI' as (_ & _ & H1 & _ & _ & _ & H2 & _ & n & off & HRn & _ & HF). fold t in H1, H2, HF. split; [|exact H2].
      destruct (l_pend _); [destruct HF as (len & [(_ & F & _)|(_ & F & _)]); lia|lia].
    Qed.
    Lemma t93_progress is js : keeps (is ++ js) ->
      let s := init m0 d0 b0 in let t := trace step s (i0 :: is) in let t2 := trace step (final step s (i0 :: is)) js in
      honest mem (8 * 2 ^ a / 8) AW [] (t ++ t2) -> fits IDL PW 0 0 (t ++ t2) -> serves mem (8 * 2 ^ a / 8) AW (due_after mem (8 * 2 ^ a / 8) AW [] t) t2 ->
      length (received t) < announced PW 0 t -> 6 <= length js -> received t2 <> [].
    Proof.
      intros Hk s t t2 Hh Hf Hs Hl H6. apply Forall_app in Hk. destruct Hk as [Hk1 Hk2].
      assert (Happ : forall due (u v : list (l_in * l_out)) B AW', honest mem B AW' due (u ++ v) <-> honest mem B AW' due u /\ honest mem B AW' (due_after mem B AW' due u) v).
      { intros due u. revert due. induction u as [|c u IH]; intros due v B AW'; cbn [app honest due_after]; [tauto|]. rewrite IH. tauto. }
      assert (Fapp : forall (u v : list (l_in * l_out)) w r, fits IDL PW w r (u ++ v) -> fits IDL PW w r u).
      { induction u as [|c u IH]; intros v w r; cbn [app fits]; [auto|]. intros [H1 H2]. split; [exact H1|]. eapply IH. exact H2. }
      apply Happ in Hh. destruct Hh as [Hh1 Hh2].
      destruct (tail_eq is) as (E1 & E2 & E3 & E4 & E5 & E6 & E7).
      (* the state after the prefix, with the number of loaded items of [fits] *)
      assert (G : forall js' s' due W R m a' q, Inv ID IDL CAP ITEMS AW (8 * 2 ^ a) PW mem b s' due W R m a' q -> forall is', keeps is' ->
                let u := trace step s' is' in honest mem (2 ^ a) AW due u -> fits IDL PW W R (u ++ trace step (final step s' is') js') ->
                exists q' R' , Inv ID IDL CAP ITEMS AW (8 * 2 ^ a) PW mem b (final step s' is') (due_after mem (2 ^ a) AW due u) (announced PW W u) R' (m + length (received u)) (a' + asked IDL u) q' /\ fits IDL PW (announced PW W u) R' (trace step (final step s' is') js')).
      { intros js' s' due W R m a' q H is'. revert s' due W R m a' q H. induction is' as [|i is' IH]; intros s' due W R m a' q H Hk' u Hh' Hf'.
        - subst u. exists q, R. split; [|exact Hf']. change (Inv ID IDL CAP ITEMS AW (8 * 2 ^ a) PW mem b s' due W R (m + 0) (a' + 0) q). rewrite !Nat.add_0_r. exact H.
        - subst u. rewrite trace_cons, final_cons in *. inversion Hk' as [|? ? [K1 K2] K3]; subst. cbn [honest fits app fst snd] in Hh', Hf'. destruct Hh' as [h1 h2]. destruct Hf' as [f1 f2].
          pose proof (inv_step ID IDL CAP ITEMS AW (8 * 2 ^ a) PW mem) as L. rewrite (al_pow a) in L by lia.
          destruct (L Hid HC HI HP ltac:(lia) b b_lt s' due W R m a' q i H K1 K2 h1 f1) as [(q' & HI') _].
          destruct (IH _ _ _ _ _ _ _ HI' K3 h2 f2) as (q2 & R2 & G1 & G2). exists q2, R2. split; [|exact G2].
          set (o := snd (step s' i)) in *. set (u := trace step (fst (step s' i)) is') in *.
          assert (received ((i, o) :: u) = (if d_v o && d_rd i then [d_d o] else []) ++ received u) as Er by reflexivity.
          assert (asked IDL ((i, o) :: u) = asked IDL [(i, o)] + asked IDL u) as Ea.
          { unfold asked, requests. cbn [flat_map]. rewrite app_nil_r, map_app, list_sum_app. reflexivity. }
          rewrite Er, Ea, app_length, (Nat.add_assoc a'). cbn [announced due_after fst]. replace (m + (length (if d_v o && d_rd i then [d_d o] else []) + length (received u))) with (m + (if d_v o && d_rd i then 1 else 0) + length (received u)) by (destruct (d_v o && d_rd i); cbn; lia). exact G1. }
      assert (Hf' : fits IDL PW 0 0 (trace step (init m0 d0 b) (nobase i0 :: is) ++ trace step (final step (init m0 d0 b) (nobase i0 :: is)) js)).
      { destruct (tail_eq (is ++ js)) as (_ & _ & _ & _ & E5' & _ & _). specialize (E5' 0 0). rewrite <- trace_app. apply E5'. rewrite app_comm_cons, trace_app. exact Hf. }
      apply E4 in Hh1. unfold t2, t, s in *. rewrite E1, E3, E6, E7 in *. rewrite W8 in *.
      destruct (G js _ [] 0 0 0 0 [] (inv_init ID IDL CAP ITEMS AW (8 * 2 ^ a) PW mem Hid HC HI HP ltac:(rewrite (al_pow a) by lia; lia) b ltac:(rewrite (al_pow a) by lia; apply b_lt) m0 d0) _ (kb is Hk1) Hh1 Hf') as (q & R & G1 & G2).
      pose proof (prog ID IDL CAP ITEMS AW (8 * 2 ^ a) PW mem) as L. rewrite (al_pow a) in L by lia. refine (L Hid HC HI HP ltac:(lia) b b_lt js _ _ _ _ _ _ _ G1 Hk2 Hl Hh2 G2 Hs _).
      refine (Nat.le_trans _ 6 _ _ H6). unfold rank. repeat match goal with |- context [if ?c then _ else _] => destruct c end; lia.
    Qed.
  End Run.
End Top.
