From Verif Require Import Base BaseFacts StreamSpec StreamFacts HsRegModel ReorderModel ReorderSpec.

(** how many of 0..k-1 are x modulo N *)
Fixpoint visits (N k x : nat) : nat := match k with 0 => 0 | S k => visits N k x + (if k mod N =? x then 1 else 0) end.
Lemma visits_eq N : 1 <= N -> forall k x, x < N -> visits N k x = k / N + (if x <? k mod N then 1 else 0).
Proof.
  intros HN. induction k as [|k IH]; intros x Hx.
  - cbn [visits]. rewrite Nat.div_0_l, Nat.mod_0_l by lia. reflexivity.
  - cbn [visits]. rewrite (IH x Hx). pose proof (Nat.mod_upper_bound k N ltac:(lia)) as Hm.
    pose proof (Nat.div_mod k N ltac:(lia)) as E. set (q := k / N) in *. set (r := k mod N) in *.
    destruct (Nat.eq_dec (r + 1) N) as [Hr|Hr].
    + assert (E1 : S k / N = q + 1) by (symmetry; apply Nat.div_unique with (r := 0); lia).
      assert (E2 : S k mod N = 0) by (symmetry; apply Nat.mod_unique with (q := q + 1); lia).
      rewrite E1, E2. clearbody q r. destruct (Nat.ltb_spec x r), (Nat.eqb_spec r x), (Nat.ltb_spec x 0); lia.
    + assert (E1 : S k / N = q) by (symmetry; apply Nat.div_unique with (r := r + 1); lia).
      assert (E2 : S k mod N = r + 1) by (symmetry; apply Nat.mod_unique with (q := q); lia).
      rewrite E1, E2. clearbody q r. destruct (Nat.ltb_spec x r), (Nat.eqb_spec r x), (Nat.ltb_spec x (r + 1)); lia.
Qed.
Lemma visits_cur N k : 1 <= N -> visits N k (k mod N) = k / N.
Proof.
  intros HN. rewrite visits_eq; [|exact HN|apply Nat.mod_upper_bound; lia]. rewrite (proj2 (Nat.ltb_ge _ _)) by lia. lia.
Qed.

Section Reorder.
  Context {A : Type}.
  Variable w : nat.
  Let N := 2 ^ w.
  Lemma N_pos : 1 <= N. Proof. unfold N. pose proof (pow2_pos w). lia. Qed.

  Definition opt (b : bool) (x : A) : list A := if b then [x] else [].
  Definition pipe (s : rb_st A) : list A := opt (rb_vld s) (rb_data s) ++ opt (rb_ovld s) (rb_odata s) ++ opt (rb_pend s) (rb_dout s).
  Definition regw (s : rb_st A) : list (nat * A) := if occ (rb_reg s) then [sdat (rb_reg s)] else [].

  Record rb_rep (s : rb_st A) (acc : list (nat * A)) (del : list A) (wr : list (nat * A)) : Prop := {
    r_kind : sk (rb_reg s) = KLat;
    r_acc : acc = wr ++ regw s;
    r_reg : occ (rb_reg s) = true -> fst (sdat (rb_reg s)) < N;
    r_over : rb_ovld s = true -> rb_vld s = true /\ rb_pend s = false;
    r_cnt : rb_cnt s = length (del ++ pipe s) mod N;
    r_len : forall x, x < N -> length (with_id x wr) = visits N (length (del ++ pipe s)) x + (if rb_occ s x then 1 else 0);
    r_mem : forall x, x < N -> rb_occ s x = true -> exists l, with_id x wr = l ++ [rb_mem s x];
    r_seq : forall k v, nth_error (del ++ pipe s) k = Some v -> seq_word N wr k = Some v }.

  Lemma with_id_app x (l m : list (nat * A)) : with_id x (l ++ m) = with_id x l ++ with_id x m.
  Proof. unfold with_id. now rewrite filter_app, map_app. Qed.
  Lemma with_id_one x id (d : A) : with_id x [(id, d)] = if id =? x then [d] else [].
  Proof. unfold with_id. cbn. now destruct (id =? x). Qed.
  Lemma seq_word_app (l m : list (nat * A)) k v : seq_word N l k = Some v -> seq_word N (l ++ m) k = Some v.
  Proof.
    unfold seq_word. intros H. rewrite with_id_app, nth_error_app1; [exact H|]. apply nth_error_Some. congruence.
  Qed.

  Definition acc1 (i : rb_in A) (o : rb_out A) : list (nat * A) := if bi_vld i && bo_rd o then [(bi_id i, bi_data i)] else [].
  Definition del1 (i : rb_in A) (o : rb_out A) : list A := if bo_vld o && bi_rd i then [bo_data o] else [].

  Lemma rb_rep_step s i acc del wr : rb_rep s acc del wr -> bi_id i < N ->
    exists wr', rb_rep (fst (rb_step w s i)) (acc ++ acc1 i (snd (rb_step w s i))) (del ++ del1 i (snd (rb_step w s i))) wr'.
  Proof.
    intros R Hid. destruct R as [Rk Ra Rr Ro Rc Rl Rm Rs]. pose proof N_pos as HN.
    destruct s as [reg occb cnt mem dout pend vld data ovld odata].
    cbn [rb_reg rb_occ rb_cnt rb_mem rb_dout rb_pend rb_vld rb_data rb_ovld rb_odata] in *.
    destruct reg as [k oc [id d]]. cbn [sk] in Rk. subst k.
    unfold rb_step. cbn [rb_reg rb_occ rb_cnt rb_mem rb_dout rb_pend rb_vld rb_data rb_ovld rb_odata sdat HsRegModel.occ].
    cbn [stage_rd sk HsRegModel.occ].
    set (cond := negb (occb id)). set (rdy := bi_rd i).
    set (rEn := (negb ovld || rdy) && (negb vld || rdy)). set (issue := occb cnt && rEn). set (wrt := oc && cond).
    set (q := if pend then if negb vld || rdy then (true, dout, false, odata) else (vld, data, true, dout)
              else if rdy then (ovld, odata, false, odata) else (vld, data, ovld, odata)).
    set (dout' := if issue then mem cnt else dout).
    (* the read pipeline *)
    assert (Hpipe : let '(vld', data', ovld', odata') := q in
       (opt vld data ++ opt ovld odata ++ opt pend dout) ++ opt issue dout' =
       opt (vld && rdy) data ++ opt vld' data' ++ opt ovld' odata' ++ opt issue dout' /\
       (ovld' = true -> vld' = true /\ issue = false)).
    { unfold q. destruct ovld.
      - destruct (Ro eq_refl) as [-> ->]. cbn [negb orb andb] in rEn. destruct rdy.
        + cbn. split; [reflexivity|discriminate].
        + cbn in rEn. cbn. split; [reflexivity|]. intros _. split; [reflexivity|]. unfold issue, rEn. apply andb_false_r.
      - cbn [negb orb andb] in rEn. destruct pend, vld, rdy; cbn in rEn |- *; (split; [reflexivity|]); try discriminate.
        intros _. split; [reflexivity|]. unfold issue, rEn. apply andb_false_r. }
    destruct q as [[[vld' data'] ovld'] odata']. destruct Hpipe as [Hpipe Hov].
    cbn [fst snd bo_rd bo_vld bo_data]. unfold acc1, del1. cbn [bo_rd bo_vld bo_data].
    set (pre := del ++ pipe (mk_rb (mk_stage KLat oc (id, d)) occb cnt mem dout pend vld data ovld odata)) in *.
    set (ird := if oc then cond else true).
    set (reg' := stage_next (mk_stage KLat oc (id, d)) (bi_vld i) (bi_id i, bi_data i) cond).
    set (s' := mk_rb reg' _ _ _ dout' issue vld' data' ovld' odata').
    fold rdy.
    assert (Hpre : (del ++ (if vld && rdy then [data] else [])) ++ pipe s' = pre ++ opt issue dout').
    { unfold pre, pipe. cbn [rb_vld rb_data rb_ovld rb_odata rb_pend rb_dout s']. rewrite <- !app_assoc. f_equal.
      rewrite <- !app_assoc in Hpipe. rewrite Hpipe. reflexivity. }
    exists (wr ++ (if wrt then [(id, d)] else [])).
    assert (Hc : cnt = length pre mod N) by exact Rc.
    assert (Hcl : cnt < N) by (rewrite Hc; apply Nat.mod_upper_bound; lia).
    assert (Hne : wrt = true -> issue = true -> id <> cnt).
    { unfold wrt, issue, cond. intros W I ->. destruct (occb cnt); [now rewrite andb_false_r in W|discriminate]. }
    assert (Hlen : length (pre ++ opt issue dout') = length pre + if issue then 1 else 0).
    { rewrite app_length. destruct issue; reflexivity. }
    constructor.
    - reflexivity.
    - rewrite Ra. unfold regw. cbn [rb_reg s']. unfold reg', stage_next. cbn [sk HsRegModel.occ sdat]. unfold wrt, ird.
      destruct oc, cond, (bi_vld i); cbn; rewrite ?app_nil_r; rewrite <- ?app_assoc; reflexivity.
    - cbn [rb_reg s']. unfold reg', stage_next. cbn [sk HsRegModel.occ sdat]. cbn [HsRegModel.occ sdat fst] in Rr.
      destruct oc, cond, (bi_vld i); cbn; auto; discriminate.
    - cbn [rb_ovld rb_vld rb_pend s']. exact Hov.
    - rewrite Hpre, Hlen. cbn [rb_cnt s']. rewrite Hc. destruct issue.
      + unfold winc, wrap. fold N. rewrite Nat.add_mod_idemp_l by lia. reflexivity.
      + now rewrite Nat.add_0_r.
    - intros x Hx. rewrite Hpre, Hlen. cbn [rb_occ s'].
      rewrite with_id_app, app_length, (Rl x Hx).
      assert (Ev : visits N (length pre + (if issue then 1 else 0)) x = visits N (length pre) x + (if issue && (x =? cnt) then 1 else 0)).
      { destruct issue; [|cbn [andb]; now rewrite !Nat.add_0_r]. rewrite Nat.add_1_r. cbn [visits andb]. rewrite <- Hc. rewrite Nat.eqb_sym. reflexivity. }
      rewrite Ev. unfold wrt at 1. fold wrt.
      destruct wrt eqn:Ew.
      + rewrite with_id_one. assert (Hoc : occb id = false).
        { unfold wrt, cond in Ew. destruct (occb id); [|reflexivity]. now rewrite andb_false_r in Ew. }
        rewrite (Nat.eqb_sym x id). destruct (Nat.eqb_spec id x) as [->|Hx2].
        * rewrite Hoc. cbn [length andb orb]. rewrite Nat.add_0_r.
          assert (Ei : issue && (x =? cnt) = false).
          { destruct issue eqn:Ei; [|reflexivity]. cbn. apply Nat.eqb_neq. now apply Hne. }
          rewrite Ei. lia.
        * cbn [length]. cbn [andb]. rewrite orb_false_r. destruct issue eqn:Ei; cbn [andb negb].
          -- destruct (Nat.eqb_spec x cnt) as [->|]; cbn [negb].
             ++ assert (Eo : occb cnt = true) by (unfold issue in Ei; destruct (occb cnt); [reflexivity|discriminate]).
                rewrite Eo. cbn. lia.
             ++ rewrite andb_true_r. lia.
          -- rewrite andb_true_r. lia.
      + cbn [length with_id filter map andb]. rewrite orb_false_r. destruct issue eqn:Ei; cbn [andb negb].
        * destruct (Nat.eqb_spec x cnt) as [->|]; cbn [negb].
          -- assert (Eo : occb cnt = true) by (unfold issue in Ei; destruct (occb cnt); [reflexivity|discriminate]).
             rewrite Eo. cbn. lia.
          -- rewrite andb_true_r. lia.
        * rewrite andb_true_r. lia.
    - intros x Hx. cbn [rb_occ rb_mem s']. intros Ho. rewrite with_id_app. destruct wrt eqn:Ew.
      + rewrite with_id_one. destruct (Nat.eqb_spec id x) as [->|Hx2].
        * rewrite upd_eq. eauto.
        * rewrite upd_neq by congruence. rewrite (proj2 (Nat.eqb_neq x id)) in Ho by congruence.
          cbn [andb] in Ho. rewrite orb_false_r in Ho. apply andb_true_iff in Ho. destruct Ho as [Ho _].
          destruct (Rm x Hx Ho) as (l & El). exists l. now rewrite El, app_nil_r.
      + cbn [andb] in Ho. rewrite orb_false_r in Ho. apply andb_true_iff in Ho. destruct Ho as [Ho _].
        destruct (Rm x Hx Ho) as (l & El). exists l. now rewrite El, app_nil_r.
    - rewrite Hpre. intros k v Hk. apply seq_word_app.
      destruct (Nat.lt_ge_cases k (length pre)) as [Hkl|Hkl].
      + rewrite nth_error_app1 in Hk by exact Hkl. now apply Rs.
      + rewrite nth_error_app2 in Hk by exact Hkl. destruct issue eqn:Ei; [|destruct (k - length pre); discriminate].
        destruct (k - length pre) as [|z] eqn:Ez; [|destruct z; discriminate]. cbn in Hk. injection Hk as <-.
        assert (Ek : k = length pre) by lia. subst k. unfold dout'.
        assert (Eo : occb cnt = true) by (unfold issue in Ei; destruct (occb cnt); [reflexivity|discriminate]).
        destruct (Rm cnt Hcl Eo) as (l & El). specialize (Rl cnt Hcl). rewrite Eo in Rl.
        unfold seq_word. rewrite <- Hc, El. rewrite El, app_length in Rl. cbn [length] in Rl.
        assert (Ev : visits N (length pre) cnt = length pre / N) by (rewrite Hc; now apply visits_cur).
        rewrite nth_error_app2 by lia. replace (length pre / N - length l) with 0 by lia. reflexivity.
  Qed.

  Lemma rb_run (r0 : nat * A) m a b c (is : list (rb_in A)) : Forall (fun i => bi_id i < N) is ->
    let s := final (rb_step w) (rb_init r0 m a b c) is in let t := map rb_obs (trace (rb_step w) (rb_init r0 m a b c) is) in
    exists wr, rb_rep s (accepted t) (delivered t) wr.
  Proof.
    cbv zeta. induction is as [|i is IH] using rev_ind; intros H.
    - exists []. constructor; cbn; try reflexivity; try discriminate.
      + symmetry. apply Nat.mod_0_l. pose proof N_pos. lia.
      + intros [|k] v; discriminate.
    - apply Forall_app in H. destruct H as [H Hi]. apply Forall_inv in Hi. destruct (IH H) as (wr & R).
      destruct (rb_rep_step _ i _ _ _ R Hi) as (wr' & R'). exists wr'. rewrite final_snoc, trace_snoc, map_app. cbn [map].
      rewrite accepted_snoc, delivered_snoc. exact R'.
  Qed.

  Lemma rb_order (r0 : nat * A) m a b c (is : list (rb_in A)) : Forall (fun i => bi_id i < N) is ->
    let t := map rb_obs (trace (rb_step w) (rb_init r0 m a b c) is) in
    forall k v, nth_error (delivered t) k = Some v -> seq_word N (accepted t) k = Some v.
  Proof.
    intros H. cbv zeta. intros k v Hk. destruct (rb_run r0 m a b c is H) as (wr & R). cbv zeta in R. rewrite (r_acc _ _ _ _ R).
    apply seq_word_app. apply (r_seq _ _ _ _ R). rewrite nth_error_app1; [exact Hk|]. apply nth_error_Some. congruence.
  Qed.

  Lemma rb_stable (r0 : nat * A) m a b c (is : list (rb_in A)) : out_stable (map rb_obs (trace (rb_step w) (rb_init r0 m a b c) is)).
  Proof.
    generalize (rb_init r0 m a b c). induction is as [|i is IH]; intros s; [exact I|].
    rewrite trace_cons. cbn [map]. specialize (IH (fst (rb_step w s i))).
    destruct is as [|j is]; [exact I|]. rewrite trace_cons in IH |- *. cbn [map] in IH |- *. split; [|exact IH].
    clear IH. destruct s as [reg occb cnt mem dout pend vld data ovld odata]. unfold rb_obs.
    cbn [fst snd out_vld out_rd out_data]. unfold rb_step.
    cbn [rb_reg rb_occ rb_cnt rb_mem rb_dout rb_pend rb_vld rb_data rb_ovld rb_odata].
    destruct (sdat reg) as [id d]. intros V Rd. cbn [fst snd bo_vld] in V.
    assert (Ev : vld = true) by (destruct (if pend then _ else _) as [[[? ?] ?] ?] in V; exact V). subst vld. rewrite Rd.
    cbn [negb orb andb]. destruct pend; cbn [fst snd rb_reg rb_vld rb_data]; destruct (sdat _); cbn; auto;
    destruct ovld; cbn; repeat (match goal with |- context [if ?x then _ else _] => destruct x end; cbn; auto).
  Qed.

  (** progress *)
  Definition M (s : rb_st A) (n : nat) : Prop :=
    match n with
    | 1 => rb_vld s = true
    | 2 => rb_pend s = true
    | 3 => rb_occ s (rb_cnt s) = true
    | 4 => occ (rb_reg s) = true /\ fst (sdat (rb_reg s)) = rb_cnt s /\ rb_occ s (rb_cnt s) = false
    | _ => False
    end.
  Lemma M_step s i n : M s (S n) -> bi_rd i = true -> bo_vld (snd (rb_step w s i)) = true \/ M (fst (rb_step w s i)) n.
  Proof.
    destruct s as [reg occb cnt mem dout pend vld data ovld odata]. unfold rb_step, M.
    cbn [rb_reg rb_occ rb_cnt rb_mem rb_dout rb_pend rb_vld rb_data rb_ovld rb_odata].
    intros H Hr. rewrite Hr. destruct (sdat reg) as [id d] eqn:Es. rewrite !orb_true_r. cbn [andb].
    destruct n as [|[|[|[|n]]]].
    - left. subst vld. destruct pend; reflexivity.
    - right. subst pend. reflexivity.
    - right. rewrite H. destruct pend; reflexivity.
    - right. destruct H as (H1 & H2 & H3). cbn [fst] in H2. subst id. rewrite H1, H3. cbn [andb negb].
      destruct pend; cbn; rewrite Nat.eqb_refl; now rewrite orb_true_r.
    - contradiction.
  Qed.

  Lemma M_run n : forall s js, M s n -> n <= length js -> Forall (fun i => bi_rd i = true) js ->
    1 <= length (delivered (map rb_obs (trace (rb_step w) s js))).
  Proof.
    induction n as [|n IH]; intros s js HM Hl Hr; [destruct HM|]. destruct js as [|j js]; [cbn in Hl; lia|].
    inversion Hr as [|? ? Hj Hjs]; subst. rewrite trace_cons. cbn [map]. rewrite delivered_cons.
    cbn [rb_obs out_vld out_rd fst snd]. rewrite Hj, andb_true_r, app_length.
    destruct (M_step s j n HM Hj) as [E|E]; [rewrite E; cbn; lia|].
    specialize (IH _ js E ltac:(cbn in Hl; lia) Hjs). lia.
  Qed.

  Lemma rb_live (r0 : nat * A) m a b c (is js : list (rb_in A)) : Forall (fun i => bi_id i < N) is ->
    let t := map rb_obs (trace (rb_step w) (rb_init r0 m a b c) is) in
    seq_word N (accepted t) (length (delivered t)) <> None ->
    length js = 4 -> Forall (fun i => bi_rd i = true) js ->
    length (delivered t) < length (delivered (map rb_obs (trace (rb_step w) (rb_init r0 m a b c) (is ++ js)))).
  Proof.
    intros H. cbv zeta. intros Hw Hl Hr. destruct (rb_run r0 m a b c is H) as (wr & R). cbv zeta in R.
    rewrite trace_app, map_app, delivered_app, app_length.
    set (s := final (rb_step w) (rb_init r0 m a b c) is) in *.
    set (t := map rb_obs (trace (rb_step w) (rb_init r0 m a b c) is)) in *. pose proof N_pos as HN.
    assert (exists n, n <= 4 /\ M s n) as (n & Hn & HM).
    { destruct (rb_vld s) eqn:Ev; [exists 1; cbn; auto with arith|]. destruct (rb_pend s) eqn:Ep; [exists 2; cbn; auto with arith|].
      destruct R as [Rk Ra Rr Ro Rc Rl Rm Rs].
      assert (Eo : rb_ovld s = false). { destruct (rb_ovld s); [|reflexivity]. destruct (Ro eq_refl). congruence. }
      assert (Epp : pipe s = []) by (unfold pipe; rewrite Ev, Ep, Eo; reflexivity).
      rewrite Epp, app_nil_r in *. set (k := length (delivered t)) in *.
      assert (Hx : k mod N < N) by (apply Nat.mod_upper_bound; lia). specialize (Rl _ Hx). rewrite visits_cur in Rl by exact HN.
      destruct (rb_occ s (k mod N)) eqn:Eoc; [exists 3; cbn; rewrite Rc; auto with arith|].
      exists 4. split; [lia|]. cbn [M]. rewrite Rc, Eoc. unfold seq_word in Hw. apply nth_error_Some in Hw.
      rewrite Ra, with_id_app, app_length, Rl in Hw. unfold regw in Hw. destruct (occ (rb_reg s)); [|cbn in Hw; lia].
      split; [reflexivity|]. split; [|reflexivity]. destruct (sdat (rb_reg s)) as [id d]. rewrite with_id_one in Hw.
      cbn [fst]. destruct (Nat.eqb_spec id (k mod N)); [assumption|]. cbn in Hw. lia. }
    pose proof (M_run n s js HM ltac:(lia) Hr). lia.
  Qed.
End Reorder.

Definition ex_rb_in : list (rb_in nat) :=
  [mk_rbi true 1 11 true; mk_rbi true 0 10 true; mk_rbi true 0 20 true; mk_rbi false 0 0 true; mk_rbi false 0 0 true; mk_rbi false 0 0 true].
Lemma ex_rb : let t := map rb_obs (trace (rb_step 1) (rb_init (0, 0) (fun _ => 7) 0 0 0) ex_rb_in) in
  Forall (fun i => bi_id i < 2) ex_rb_in /\ accepted t = [(1, 11); (0, 10); (0, 20)] /\ delivered t = [10] /\
  seq_word 2 (accepted t) 1 = Some 11 /\ seq_word 2 (accepted t) 2 = Some 20.
Proof. repeat split; repeat constructor. Qed.
