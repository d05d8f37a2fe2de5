From Verif Require Import Base BaseFacts WdModel WdSpec.

Local Arguments Nat.eqb : simpl never.
Local Arguments off_max : simpl never.

Lemma off_max_pow : forall n k, n = 2 ^ k -> off_max n = n - 1.
Proof.
  intros n k ->. unfold off_max. destruct (Nat.eqb_spec (2 ^ k) 1) as [->|H]; [reflexivity|]. f_equal.
  unfold log2ceil. assert (2 ^ k > 0) by (apply Nat.neq_0_lt_0, Nat.pow_nonzero; lia).
  destruct (Nat.leb_spec (2 ^ k) 1); [lia|]. rewrite Nat.log2_up_pow2 by lia. reflexivity.
Qed.

Section P.
  Context {I K D B : Type}.
  Notation st := (wd_st I K D). Notation inp := (wd_in I K D B). Notation cyc := (inp * wd_out I K D B)%type.

  Definition stored (s : st) : list (D * bool) := (if rdv s then [rdat s] else []) ++ (if bdv s then [bdat s] else []).
  (** data path *)
  Definition DInv (s : st) (a : option bool * list (D * bool)) (w : list (D * bool)) : Prop :=
    fst a = (if rpend s then Some (ldel s) else None) /\ snd a = w ++ stored s /\ (bdv s = true -> rdv s = true) /\ (rpend s = true -> bdv s = false).
  Lemma d_step : forall n (s : st) (i : inp) a w, n >= 1 -> off_max n = n - 1 -> DInv s a w ->
    DInv (fst (wd_step n s i)) (answ_step n a (i, snd (wd_step n s i))) (w ++ ws1 (i, snd (wd_step n s i))).
  Proof.
    intros n s i [p l] w Hn Hm (H1 & H2 & H3 & H4). unfold DInv, answ_step, ws1, rd_word, stored in *. cbn in *. subst p l. rewrite Hm.
    unfold bus_ack, r_ack.
    assert (E : forall b, (negb (rdv s) || w_rdy i) && b && (negb (rdv s) || w_rdy i) = (negb (rdv s) || w_rdy i) && b) by (intros []; destruct (rdv s), (w_rdy i); reflexivity).
    destruct (rpend s), (rdv s), (w_rdy i), (bdv s); cbn; try (specialize (H4 eq_refl); discriminate); try (specialize (H3 eq_refl); discriminate);
      rewrite <- ?app_assoc; cbn; destruct (rdat s); cbn;
      (split; [destruct (aw_rdy i || negb (off s =? 0)), (en_rd i), (ex_vld i); reflexivity|]);
      (split; [reflexivity|]); split; intros; try congruence; auto.
  Qed.

  (** requests *)
  Definition part (s : st) (cur : I * K) : list (I * K) := if off s =? 0 then [] else [cur].
  Definition RInv (n : nat) (s : st) (prev : option (I * K)) (cur : I * K) (tk : list (I * K)) (rs : list (I * nat)) (aw : list (I * K * nat)) : Prop :=
    off s < n /\ (off s <> 0 -> prev = Some cur) /\
    rs = flat_map (words n) tk ++ flat_map (fun x => firstn (off s) (words n x)) (part s cur) /\
    map (fun x => (x, n - 1)) (tk ++ part s cur) = aw ++ (if a_vld s then [(a_id s, a_key s, n - 1)] else []).
  Lemma firstn_words : forall n (x : I * K) k, k < n -> firstn (S k) (words n x) = firstn k (words n x) ++ [(fst x, k)].
  Proof.
    intros n x k H. unfold words. rewrite !firstn_map. replace n with (k + (1 + (n - k - 1))) by lia. rewrite seq_app. cbn [plus].
    rewrite !firstn_app, seq_length. rewrite !firstn_all2 by (rewrite seq_length; lia). replace (S k - k) with 1 by lia. rewrite Nat.sub_diag.
    cbn. rewrite app_nil_r, map_app, firstn_all2 by (rewrite seq_length; lia). reflexivity.
  Qed.
  Lemma r_step : forall n (s : st) (i : inp) prev cur tk rs aw, n >= 1 -> off_max n = n - 1 -> RInv n s prev cur tk rs aw ->
    match prev with None => True | Some x => ex_vld i = true /\ (ex_idx i, ex_key i) = x end ->
    let c := (i, snd (wd_step n s i)) in
    RInv n (fst (wd_step n s i)) (held c) (ex_idx i, ex_key i) (tk ++ taken1 c) (rs ++ reads1 c) (aw ++ aws1 c) \/
    (RInv n (fst (wd_step n s i)) (held c) cur (tk ++ taken1 c) (rs ++ reads1 c) (aw ++ aws1 c)).
  Proof.
    intros n s i prev cur tk rs aw Hn Hm (H1 & H2 & H3 & H4) HP c.
    assert (HC : off s <> 0 -> ex_vld i = true /\ cur = (ex_idx i, ex_key i)).
    { intros H. rewrite (H2 H) in HP. destruct HP as [-> ->]. auto. }
    assert (EV : taken1 c = if go s i && (off s =? n - 1) then [(ex_idx i, ex_key i)] else []).
    { unfold c, taken1, wd_step, go. cbn. rewrite Hm. destruct (ex_vld i), (bus_ack s i), (en_rd i), (off s =? n - 1); reflexivity. }
    assert (ER : reads1 c = if go s i then [(ex_idx i, off s)] else []).
    { unfold c, reads1, rd_word, wd_step, go. cbn. destruct (ex_vld i), (bus_ack s i), (en_rd i); reflexivity. }
    assert (EA : aws1 c = if a_vld s && aw_rdy i then [(a_id s, a_key s, n - 1)] else []) by reflexivity.
    assert (EO : off (fst (wd_step n s i)) = if go s i then (if negb (off s =? n - 1) then off s + 1 else 0) else off s) by (cbn; rewrite Hm; reflexivity).
    assert (EL : a_vld (fst (wd_step n s i)) = if go s i && (off s =? 0) then true else a_vld s && negb (aw_rdy i)) by reflexivity.
    assert (EI : a_id (fst (wd_step n s i)) = if go s i && (off s =? 0) then ex_idx i else a_id s) by reflexivity.
    assert (EK : a_key (fst (wd_step n s i)) = if go s i && (off s =? 0) then ex_key i else a_key s) by reflexivity.
    assert (EH : held c = if ex_vld i && negb (go s i && (off s =? n - 1)) then Some (ex_idx i, ex_key i) else None).
    { unfold c, held, wd_step, go. cbn. rewrite Hm. destruct (ex_vld i), (bus_ack s i), (en_rd i), (off s =? n - 1); reflexivity. }
    assert (GA : go s i = true -> off s = 0 -> aw_rdy i = true).
    { unfold go, bus_ack. intros G O. rewrite O in G. change (0 =? 0) with true in G. destruct (aw_rdy i); [reflexivity|]. rewrite andb_false_r in G. discriminate. }
    assert (GV : go s i = true -> ex_vld i = true) by (unfold go; intros G; destruct (ex_vld i); [reflexivity|rewrite andb_false_r in G; discriminate]).
    unfold RInv, part in *. rewrite EV, ER, EA, EO, EL, EI, EK, EH.
    destruct (go s i) eqn:EG; cbn [andb negb].
    - left. rewrite (GV eq_refl). cbn [andb].
      destruct (Nat.eqb_spec (off s) (n - 1)) as [El|El]; cbn [negb].
      + (* last word *) change (0 =? 0) with true. cbn [flat_map app]. rewrite !app_nil_r. split; [lia|]. split; [lia|].
        destruct (Nat.eqb_spec (off s) 0) as [Ez|Ez].
        * assert (n = 1) as En by lia. rewrite En in *. cbn [andb] in *. cbn [flat_map app] in H3. rewrite ?app_nil_r in *. split.
          -- rewrite flat_map_app, <- H3. f_equal. cbn. rewrite Ez. reflexivity.
          -- rewrite map_app, H4. cbn. rewrite (GA eq_refl Ez), andb_true_r. destruct (a_vld s); cbn; rewrite <- ?app_assoc; reflexivity.
        * destruct (HC Ez) as [_ HC']. rewrite <- HC' in *. split.
          -- rewrite flat_map_app, H3. cbn [flat_map]. rewrite !app_nil_r, <- app_assoc. f_equal. replace (ex_idx i) with (fst cur) by (rewrite HC'; reflexivity).
             rewrite <- firstn_words by lia. apply firstn_all2. unfold words. rewrite map_length, seq_length. lia.
          -- rewrite H4. destruct (a_vld s), (aw_rdy i); cbn; rewrite <- ?app_assoc, ?app_nil_r; reflexivity.
      + split; [lia|]. split; [auto|]. replace (off s + 1 =? 0) with false by (symmetry; apply Nat.eqb_neq; lia). rewrite app_nil_r.
        replace (off s + 1) with (S (off s)) by lia. cbn [flat_map]. rewrite app_nil_r. rewrite firstn_words by lia. cbn [fst].
        destruct (Nat.eqb_spec (off s) 0) as [Ez|Ez].
        * cbn [flat_map] in H3. rewrite app_nil_r in H3, H4. rewrite Ez in *. cbn [firstn app]. split; [rewrite H3; reflexivity|].
          rewrite map_app, H4. cbn. rewrite (GA eq_refl eq_refl), andb_true_r. destruct (a_vld s); cbn; rewrite <- ?app_assoc; reflexivity.
        * destruct (HC Ez) as [_ HC']. rewrite <- HC' in *. split.
          -- rewrite H3. cbn [flat_map]. rewrite !app_nil_r, <- app_assoc. f_equal.
          -- rewrite H4. destruct (a_vld s), (aw_rdy i); cbn; rewrite <- ?app_assoc, ?app_nil_r; reflexivity.
    - right. rewrite !app_nil_r. split; [exact H1|]. split; [intros H; destruct (HC H) as [-> ->]; reflexivity|]. split; [exact H3|].
      rewrite H4. destruct (a_vld s), (aw_rdy i); cbn; rewrite <- ?app_assoc, ?app_nil_r; reflexivity.
  Qed.

  Variable n k : nat.
  Hypothesis Hk : n = 2 ^ k.
  Lemma n_pos : n >= 1.
  Proof. rewrite Hk. pose proof (Nat.pow_nonzero 2 k). lia. Qed.
  Lemma n_max : off_max n = n - 1.
  Proof. exact (off_max_pow n k Hk). Qed.

  Lemma wd_gen : forall (is : list inp) (s : st) prev cur a w tk rs aw, DInv s a w -> RInv n s prev cur tk rs aw ->
    holds prev (trace (wd_step n) s is) ->
    let t := trace (wd_step n) s is in let s' := final (wd_step n) s is in
    DInv s' (fold_left (answ_step n) t a) (w ++ ws t) /\ exists prev' cur', RInv n s' prev' cur' (tk ++ taken t) (rs ++ reads t) (aw ++ aws t).
  Proof.
    induction is as [|i is IH]; intros s prev cur a w tk rs aw HD HR HH.
    - cbn. rewrite !app_nil_r. split; [exact HD|eauto].
    - rewrite trace_cons in *. rewrite final_cons. cbv zeta. destruct HH as [HH1 HH2].
      pose proof (d_step n s i a w n_pos n_max HD) as HD'. pose proof (r_step n s i prev cur tk rs aw n_pos n_max HR HH1) as HR'. cbv zeta in HR'.
      cbn [fold_left]. unfold ws, taken, reads, aws in *. cbn [flat_map]. rewrite !app_assoc.
      destruct HR' as [HR'|HR']; (eapply IH; [exact HD'|exact HR'|exact HH2]).
  Qed.

  Variables (x : I) (kk : K) (l : bool) (r b : D * bool).
  Lemma wd_main : forall is : list inp, let t := trace (wd_step n) (wd_init x kk l r b) is in holds None t ->
    exists cur j pend inside, length cur <= 1 /\ j < n /\ length pend <= 1 /\ length inside <= 2 /\
    reads t = flat_map (words n) (taken t) ++ flat_map (fun x => firstn j (words n x)) cur /\
    map (fun x => (x, n - 1)) (taken t ++ cur) = aws t ++ pend /\
    answers n t = ws t ++ inside.
  Proof.
    intros is t H. pose proof n_pos as Hn.
    destruct (wd_gen is (wd_init x kk l r b) None (x, kk) (None, []) [] [] [] []) as [(_ & D2 & D3 & _) (prev & cur & R1 & _ & R3 & R4)].
    - repeat split; discriminate.
    - repeat split; try reflexivity. cbn. lia. cbn. lia.
    - exact H.
    - cbn [app] in *. fold t in D2, D3, R1, R3, R4. set (s := final _ _ _) in *.
      exists (part s cur), (off s), (if a_vld s then [(a_id s, a_key s, n - 1)] else []), (stored s).
      split; [unfold part; destruct (off s =? 0); cbn; lia|]. split; [exact R1|]. split; [destruct (a_vld s); cbn; lia|].
      split; [unfold stored; destruct (rdv s), (bdv s); cbn; lia|]. repeat split; assumption.
  Qed.
End P.

Section Q.
  Context {I K D B : Type}.
  Notation st := (wd_st I K D). Notation inp := (wd_in I K D B).
  Lemma wd_keep : forall n (s : st) (i j : inp), keeps (i, snd (wd_step n s i)) (j, snd (wd_step n (fst (wd_step n s i)) j)).
  Proof.
    intros n s i j. split; cbn; intros H1 H2.
    - unfold r_ack. rewrite H1, H2. cbn. auto.
    - unfold go, bus_ack. rewrite H1, H2. cbn. destruct (off s =? 0); cbn; rewrite ?andb_false_r; auto.
  Qed.
  Lemma wd_b : forall n (s : st) (i : inp), let c := (i, snd (wd_step n s i)) in confirms1 c = bs1 c.
  Proof. reflexivity. Qed.
  (** progress of an item while nothing stalls *)
  Lemma wd_item : forall n (s : st) (i : inp) m, off_max n = n - 1 -> off s + m = n - 1 -> r_ack s i = true ->
    ex_vld i = true -> en_rd i = true -> aw_rdy i = true -> w_rdy i = true ->
    exists j, j <= m /\ ex_rd (snd (wd_step n (final (wd_step n) s (repeat i j)) i)) = true.
  Proof.
    intros n s i m Hm. revert s. induction m as [|m IH]; intros s H HR H1 H2 H3 H4.
    - exists 0. split; [lia|]. cbn. unfold bus_ack. rewrite HR, H1, H2, H3, Hm. replace (off s =? n - 1) with true by (symmetry; apply Nat.eqb_eq; lia). reflexivity.
    - destruct (IH (fst (wd_step n s i))) as (j & J1 & J2); auto.
      + cbn. unfold go, bus_ack. rewrite HR, H1, H2, H3, Hm. cbn. replace (off s =? n - 1) with false by (symmetry; apply Nat.eqb_neq; lia). cbn. lia.
      + unfold r_ack. rewrite H4. apply orb_true_r.
      + exists (S j). split; [lia|]. cbn [repeat]. rewrite final_cons. exact J2.
  Qed.
  (** nothing is started as long as aw.ready is low *)
  Lemma wd_stuck : forall n (is : list inp) (s : st), off s = 0 -> a_vld s = false -> Forall (fun i => aw_rdy i = false) is ->
    Forall (fun c => aw_vld (snd c) = false /\ ex_rd (snd c) = false) (trace (wd_step n) s is).
  Proof.
    intros n is. induction is as [|i is IH]; intros s H1 H2 H3; [constructor|]. rewrite trace_cons.
    assert (E : bus_ack s i = false) by (unfold bus_ack; rewrite (Forall_inv H3), H1; apply andb_false_r).
    constructor; [cbn; rewrite E; auto|]. apply IH; [| |exact (Forall_inv_tail H3)]; cbn; unfold go; rewrite E; cbn; rewrite ?H2; auto.
  Qed.
End Q.

Section L.
  Context {I K D B : Type}.
  Notation st := (wd_st I K D). Notation inp := (wd_in I K D B).
  Lemma wd_prog : forall n k (x : I) (kk : K) l (r b : D * bool) (is : list inp) (i : inp), n = 2 ^ k ->
    holds None (trace (wd_step n) (wd_init x kk l r b) is) ->
    ex_vld i = true -> en_rd i = true -> aw_rdy i = true -> w_rdy i = true ->
    exists j, j < n /\ ex_rd (snd (wd_step n (final (wd_step n) (wd_init x kk l r b) (is ++ repeat i j)) i)) = true.
  Proof.
    intros n k x kk l r b is i Hk HH H1 H2 H3 H4. pose proof (n_pos n k Hk) as Hn.
    destruct (wd_gen n k Hk is (wd_init x kk l r b) None (x, kk) (None, []) [] [] [] []) as [_ (prev & cur & R1 & _)].
    - repeat split; discriminate.
    - repeat split; try reflexivity. cbn. lia. cbn. lia.
    - exact HH.
    - destruct (wd_item n (final (wd_step n) (wd_init x kk l r b) is) i (n - 1 - off (final (wd_step n) (wd_init x kk l r b) is))) as (j & J1 & J2); auto.
      + exact (n_max n k Hk).
      + lia.
      + unfold r_ack. rewrite H4. apply orb_true_r.
      + exists j. split; [lia|]. rewrite final_app. exact J2.
  Qed.
End L.
