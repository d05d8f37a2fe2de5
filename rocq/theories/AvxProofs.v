From Verif Require Import Base BaseFacts StreamSpec StreamFacts HsRegModel FifoModel AmbModel AmbSpec AmbProofs AvxModel AvxSpec.
Local Arguments wrap : simpl never. Local Arguments wdec : simpl never. Local Arguments Nat.pow : simpl never. Local Arguments Nat.sub : simpl never. Local Arguments Nat.ltb : simpl never. Local Arguments Nat.eqb : simpl never.

Section Avx.
  Context {AD D M : Type}.
  Variable BURST : bool.
  Variable CW : nat.
  Notation St := (avx_st AD D M). Notation In_ := (avx_in AD D M). Notation Rq := (rq (pay AD D M)).
  Notation step := (avx_step (AD := AD) (D := D) (M := M) BURST CW).

  Definition lrq (q : Rq) : Prop := let '(rd, wr, (_, n, _, _)) := q in ~ (rd = true /\ wr = true) /\ 1 <= n /\ n < 2 ^ CW.
  Definition aft (left : nat) (q : Rq) : nat :=
    let '(rd, wr, (a, n, d, m)) := q in if rd then left else match left with 0 => (if BURST then n else 1) - 1 | S k => k end.
  Lemma axi_of_cons left q (l : list Rq) : axi_of BURST left (q :: l) = axi_of BURST left [q] ++ axi_of BURST (aft left q) l.
  Proof. destruct q as [[rd wr] [[[a n] d] m]]. cbn. destruct rd; [reflexivity|]. destruct left; reflexivity. Qed.

  Record Inv (s : St) (q : list Rq) (left : nat) : Prop := {
    I_reg : exists x, ad (bf s) = BReg (mk_stage KLat (match q with [] => false | _ => true end) x) /\ (q = [] \/ q = [x] /\ asks x = true /\ lrq x);
    I_left : left = if BURST && lvld s then S (lcnt s) else 0;
    I_cnt : lcnt s < 2 ^ CW }.

End Avx.

Section Run.
  Context {AD D M : Type}.
  Notation St := (avx_st AD D M). Notation In_ := (avx_in AD D M). Notation Rq := (rq (pay AD D M)).
  Notation step := (avx_step (AD := AD) (D := D) (M := M)).
  Local Ltac fin := repeat match goal with |- context [?l =? 0] => destruct (l =? 0) end; cbn in *;
    first [split; [reflexivity|cbn; rewrite ?andb_false_r, ?andb_true_r; reflexivity]
          | exfalso; repeat match goal with b : bool |- _ => destruct b end; cbn in *; congruence].
  Lemma step1 BURST CW (s : St) q left (i : In_) : Inv BURST CW s q left -> lrq CW (x_rq i) ->
    exists p q' left', Inv BURST CW (fst (step BURST CW s i)) q' left' /\ q ++ taken1 (i, snd (step BURST CW s i)) = p ++ q' /\
      evs1 (i, snd (step BURST CW s i)) = axi_of BURST left p /\ (p = [] /\ left' = left \/ exists x, p = [x] /\ left' = aft BURST left x) /\
      (x_ar i && x_aw i && x_w i = true -> p = q /\ y_wait (snd (step BURST CW s i)) = false).
  Proof.
    intros [(x & Ex & Hq) -> Hc] L. destruct s as [[a0 r0 w0] lc lv]. cbn in Ex, Hc. subst a0.
    unfold avx_step. cbn [ad bf held occ sdat lcnt lvld].
    destruct x as [[rd wr] [[[a n] d] m]].
    unfold amb_step. cbn [rb wb ad a_rq a_wait a_rv a_rd a_wv a_wr].
    destruct (buf_step 1 r0 _ _ _) as [rb' [[? rv] rdd]]. destruct (buf_step 1 w0 _ _ _) as [wb' [[? wv] wrr]].
    cbn [buf_step occ sdat stage_next stage_rd sk].
    destruct Hq as [-> | (-> & Ha & Lx)].
    - (* nothing inside *)
      rewrite !andb_false_r. cbn. rewrite ?orb_true_r. cbn.
      exists [], (if asks (x_rq i) then [x_rq i] else []). eexists. split; [|split; [|split; [|split; [left; split; reflexivity|cbn; intros R; fin]]]].
      + constructor; cbn; [|destruct BURST; reflexivity|destruct BURST; exact Hc].
        destruct (asks (x_rq i)) eqn:E; [exists (x_rq i)|eexists]; (split; [reflexivity|]); auto.
      + rewrite andb_true_r. reflexivity.
      + reflexivity.
    - cbn in Ha, Lx. rewrite !andb_true_r. destruct Lx as (Lx & Hn & Hn2).
      assert (wr = negb rd) as -> by (destruct rd, wr; cbn in *; try reflexivity; [exfalso; auto|discriminate Ha]).
      assert (wrap CW (n + 2 ^ CW - 1) = n - 1) as W1 by (unfold wrap; replace (n + 2 ^ CW - 1) with (n - 1 + 1 * 2 ^ CW) by lia; rewrite Nat.mod_add, Nat.mod_small by lia; reflexivity).
      destruct i as [rqi xar xaw xw xrv xrd xrr xbv xbr]. cbn [x_ar x_aw x_w x_rq] in *.
      destruct rd.
      + (* read *)
        cbn. rewrite ?orb_true_r. destruct xar; cbn.
        * exists [(true, false, (a, n, d, m))], (if asks rqi then [rqi] else []). eexists. split; [|split; [|split; [|split; [right; eexists; split; reflexivity|cbn; intros R; fin]]]].
          -- constructor; cbn; [|destruct BURST; reflexivity|destruct BURST; exact Hc].
             destruct (asks rqi) eqn:E; [exists rqi|eexists]; (split; [reflexivity|]); auto.
          -- rewrite andb_true_r. reflexivity.
          -- cbn. destruct BURST; [|reflexivity]. rewrite W1. reflexivity.
        * exists [], [(true, false, (a, n, d, m))]. eexists. split; [|split; [|split; [|split; [left; split; reflexivity|cbn; intros R; fin]]]].
          -- constructor; cbn; [|destruct BURST; reflexivity|destruct BURST; exact Hc]. eexists. rewrite andb_false_r. split; [reflexivity|]. right. repeat split; auto.
          -- rewrite andb_false_r. reflexivity.
          -- reflexivity.
      + (* write *)
        cbn. rewrite ?andb_false_r, ?orb_false_r, ?andb_true_r. cbn.
        destruct (xw && (xaw || (BURST && lv))) eqn:G.
        * apply andb_true_iff in G. destruct G as [-> G].
          exists [(false, true, (a, n, d, m))], (if asks rqi then [rqi] else []).
          destruct (BURST && lv) eqn:B.
          -- destruct BURST; [|discriminate B]. cbn in B. subst lv. rewrite !orb_true_r. cbn. rewrite ?andb_false_r. cbn.
             eexists. split; [|split; [|split; [|split; [right; eexists; split; reflexivity|cbn; intros R; fin]]]].
             ++ destruct (Nat.eqb_spec lc 0) as [Z|Z]; cbn.
                ** constructor; cbn; [|exact Z|exact Hc]. destruct (asks rqi) eqn:E; [exists rqi|eexists]; (split; [rewrite ?andb_false_r; cbn; reflexivity|]); auto.
                ** constructor; cbn; [|rewrite wdec_pos by lia; lia|rewrite wdec_pos by lia; lia]. destruct (asks rqi) eqn:E; [exists rqi|eexists]; (split; [rewrite ?andb_false_r; cbn; reflexivity|]); auto.
             ++ destruct (lc =? 0); cbn; rewrite ?andb_true_r; reflexivity.
             ++ destruct (lc =? 0); cbn; rewrite ?andb_false_r; reflexivity.
          -- rewrite orb_false_r in G. subst xaw. cbn. rewrite ?orb_true_r. cbn. rewrite ?andb_true_r.
             assert (1 < n -> wrap CW (n + 2 ^ CW - 2) = n - 2) as W2 by (intros; unfold wrap; replace (n + 2 ^ CW - 2) with (n - 2 + 1 * 2 ^ CW) by lia; rewrite Nat.mod_add, Nat.mod_small by lia; reflexivity).
             assert (wrap CW (n + 2 ^ CW - 2) < 2 ^ CW) as W3 by (unfold wrap; apply Nat.mod_upper_bound; lia).
             eexists. split; [|split; [|split; [|split; [right; eexists; split; reflexivity|cbn; intros R; fin]]]].
             ++ destruct BURST; cbn.
                ** constructor; cbn; [|destruct (Nat.ltb_spec 1 n); [rewrite W2 by lia; lia|lia]|exact W3]. destruct (asks rqi) eqn:E; [exists rqi|eexists]; (split; [rewrite ?andb_false_r; cbn; reflexivity|]); auto.
                ** constructor; cbn; [|reflexivity|exact Hc]. destruct (asks rqi) eqn:E; [exists rqi|eexists]; (split; [rewrite ?andb_false_r; cbn; reflexivity|]); auto.
             ++ reflexivity.
             ++ destruct BURST; cbn in B |- *; [subst lv; rewrite W1; reflexivity|reflexivity].
        * exists [], [(false, true, (a, n, d, m))]. eexists. split; [|split; [|split; [|split; [left; split; reflexivity|cbn; intros R; fin]]]].
          -- constructor; cbn; destruct BURST, lv, xaw, xw; cbn in *; try discriminate G; auto;
               (eexists; split; [rewrite ?andb_false_r; cbn; reflexivity|right; repeat split; auto; intros [? ?]; discriminate]).
          -- destruct BURST, lv, xaw, xw; cbn in *; try discriminate G; rewrite ?andb_false_r; reflexivity.
          -- destruct BURST, lv, xaw, xw; cbn in *; try discriminate G; rewrite ?andb_false_r; reflexivity.
  Qed.

  Lemma run1 BURST CW (is : list In_) : Forall (fun i => lrq CW (x_rq i)) is -> forall (s : St) q left, Inv BURST CW s q left ->
    exists done inside left', Inv BURST CW (final (step BURST CW) s is) inside left' /\ q ++ taken (trace (step BURST CW) s is) = done ++ inside /\
      evs (trace (step BURST CW) s is) = axi_of BURST left done /\ forall l, axi_of BURST left (done ++ l) = axi_of BURST left done ++ axi_of BURST left' l.
  Proof.
    induction 1 as [|i is L _ IH]; intros s q left I0.
    - exists [], q, left. cbn. rewrite app_nil_r. auto.
    - destruct (step1 BURST CW s q left i I0 L) as (p & q1 & left1 & I1 & E1 & V1 & P & _). destruct (IH _ _ _ I1) as (done & inside & left2 & I2 & E2 & V2 & A2).
      exists (p ++ done), inside, left2. rewrite final_cons, trace_cons. split; [exact I2|]. cbn [taken evs flat_map].
      fold (taken (trace (step BURST CW) (fst (step BURST CW s i)) is)). fold (evs (trace (step BURST CW) (fst (step BURST CW s i)) is)).
      split; [rewrite app_assoc, E1, <- !app_assoc; f_equal; exact E2|]. rewrite V1, V2.
      destruct P as [[-> ->]|(x & -> & ->)]; [split; [reflexivity|exact A2]|]. cbn [app]. split; [symmetry; apply axi_of_cons|].
      intros l. rewrite (axi_of_cons _ _ x (done ++ l)), (axi_of_cons _ _ x done), A2, app_assoc. reflexivity.
  Qed.
  Lemma inv0 BURST CW m1 x1 m2 x2 m3 x3 : Inv (AD := AD) (D := D) (M := M) BURST CW (avx_init m1 x1 m2 x2 m3 x3) [] 0.
  Proof. constructor; cbn; [exists x1; auto|rewrite andb_false_r; reflexivity|]. pose proof (Nat.pow_nonzero 2 CW). lia. Qed.
  Lemma legal_lrq CW (is : list In_) : Forall (legal CW) is -> Forall (fun i => lrq CW (x_rq i)) is.
  Proof. intros H. eapply Forall_impl; [|exact H]. intros i. unfold legal, lrq. destruct (x_rq i) as [[rd wr] [[[a n] d] m]]. auto. Qed.
  Lemma inv_len BURST CW (s : St) q left : Inv BURST CW s q left -> length q <= 1.
  Proof. intros [(x & _ & [->|[-> _]]) _ _]; cbn; lia. Qed.

  Lemma avx_trans BURST CW m1 x1 m2 x2 m3 x3 (is : list In_) : Forall (legal CW) is -> let t := trace (step BURST CW) (avx_init m1 x1 m2 x2 m3 x3) is in
    exists done inside, taken t = done ++ inside /\ length inside <= 1 /\ evs t = axi_of BURST 0 done.
  Proof.
    intros H t. destruct (run1 BURST CW is (legal_lrq CW is H) _ _ _ (inv0 BURST CW m1 x1 m2 x2 m3 x3)) as (done & inside & l' & I' & E & V & A).
    exists done, inside. split; [exact E|]. split; [apply (inv_len _ _ _ _ _ I')|exact V].
  Qed.
  (** all readies high: the request inside leaves, and no new one has to wait *)
  Lemma avx_progress BURST CW m1 x1 m2 x2 m3 x3 (is : list In_) i : Forall (legal CW) (is ++ [i]) ->
    let s0 := avx_init m1 x1 m2 x2 m3 x3 in let t := trace (step BURST CW) s0 (is ++ [i]) in
    x_ar i = true -> x_aw i = true -> x_w i = true ->
    y_wait (snd (step BURST CW (final (step BURST CW) s0 is) i)) = false /\ evs t = axi_of BURST 0 (taken (trace (step BURST CW) s0 is)).
  Proof.
    intros H s0 t Har Haw Hw. apply Forall_app in H. destruct H as [H Hi]. apply Forall_inv in Hi.
    destruct (run1 BURST CW is (legal_lrq CW is H) _ _ _ (inv0 BURST CW m1 x1 m2 x2 m3 x3)) as (done & inside & l' & I' & E & V & A). fold s0 in E, V, I'. cbn [app] in E.
    assert (lrq CW (x_rq i)) as Li by (apply (Forall_inv (legal_lrq CW [i] (Forall_cons _ Hi (Forall_nil _))))).
    destruct (step1 BURST CW _ _ _ i I' Li) as (p & q' & l2 & I2 & E2 & V2 & P & F).
    destruct F as [-> Hwait]; [rewrite Har, Haw, Hw; reflexivity|]. split; [exact Hwait|]. unfold t. rewrite trace_snoc. unfold evs. rewrite flat_map_app. fold (evs (trace (step BURST CW) s0 is)).
    cbn [flat_map]. rewrite app_nil_r. rewrite V, V2, E. symmetry. apply A.
  Qed.
  (** a write inside stays there and is not offered while neither aw nor w is ready *)
  Lemma avx_stuck BURST CW p (js : list In_) : Forall (fun j => x_aw j = false /\ x_w j = false) js -> forall s : St,
    ad (bf s) = BReg (mk_stage KLat true (false, true, p)) -> BURST && lvld s = false ->
    Forall (fun c => y_awv (snd c) = false /\ y_wv (snd c) = false /\ y_wait (snd c) = true) (trace (step BURST CW) s js).
  Proof.
    induction 1 as [|j js [Haw Hw] _ IH]; intros s E B; [constructor|]. rewrite trace_cons.
    assert (snd (step BURST CW s j) = snd (step BURST CW s j) /\ ad (bf (fst (step BURST CW s j))) = BReg (mk_stage KLat true (false, true, p)) /\
      BURST && lvld (fst (step BURST CW s j)) = false /\ y_awv (snd (step BURST CW s j)) = false /\ y_wv (snd (step BURST CW s j)) = false /\ y_wait (snd (step BURST CW s j)) = true) as (_ & E1 & B1 & O).
    { destruct s as [[a0 r0 w0] lc lv]. cbn in E, B. subst a0. destruct p as [[[a n] d] m]. unfold avx_step. cbn [ad bf held occ sdat lcnt lvld].
      rewrite Haw, Hw, B. cbn [andb orb negb]. unfold amb_step. cbn [rb wb ad a_rq a_wait a_rv a_rd a_wv a_wr].
      destruct (buf_step 1 r0 _ _ _) as [rb' [[? rv] rdd]]. destruct (buf_step 1 w0 _ _ _) as [wb' [[? wv] wrr]].
      cbn. rewrite ?andb_false_r. cbn. rewrite ?andb_false_r. cbn. repeat split. destruct BURST; [exact B|reflexivity]. }
    constructor; [exact O|]. apply IH; assumption.
  Qed.
  Lemma avx_stuck0 BURST CW m1 x1 m2 x2 m3 x3 i (js : list In_) p : x_rq i = (false, true, p) -> Forall (fun j => x_aw j = false /\ x_w j = false) js ->
    Forall (fun c => y_awv (snd c) = false /\ y_wv (snd c) = false /\ y_wait (snd c) = true) (trace (step BURST CW) (fst (step BURST CW (avx_init m1 x1 m2 x2 m3 x3) i)) js).
  Proof.
    intros E H. apply (avx_stuck BURST CW p _ H).
    - unfold avx_step, avx_init, amb_init, mk_buff. change (1 =? 1) with true. cbn [ad bf held occ sdat lcnt lvld]. destruct x1 as [[rd wr] [[[a n] d] m]]. cbn. rewrite ?andb_false_r. cbn. rewrite E. reflexivity.
    - unfold avx_step, avx_init, amb_init, mk_buff. change (1 =? 1) with true. cbn [ad bf held occ sdat lcnt lvld]. destruct x1 as [[rd wr] [[[a n] d] m]]. cbn. rewrite ?andb_false_r. cbn. destruct BURST; reflexivity.
  Qed.

  Lemma avx_parts BURST CW (s : St) (i : In_) :
    r_avl (i, snd (step BURST CW s i)) = (let '(_, (_, ov, od)) := buf_step 1 (rb (bf s)) (x_rv i) (x_rd i) true in if ov then Some od else None) /\
    rb (bf (fst (step BURST CW s i))) = fst (buf_step 1 (rb (bf s)) (x_rv i) (x_rd i) true) /\
    b_avl (i, snd (step BURST CW s i)) = (let '(_, (_, ov, od)) := buf_step 1 (wb (bf s)) (x_bv i) (resp_map (x_bresp i)) true in if ov then Some od else None) /\
    wb (bf (fst (step BURST CW s i))) = fst (buf_step 1 (wb (bf s)) (x_bv i) (resp_map (x_bresp i)) true) /\
    y_rr (snd (step BURST CW s i)) = true /\ y_br (snd (step BURST CW s i)) = true.
  Proof.
    unfold avx_step. destruct (held (ad (bf s))) as [v [[rd0 wr0] [[[a n] d] m]]]. unfold amb_step. cbn [a_rv a_rd a_wv a_wr a_rq a_wait].
    destruct (buf_step 1 (rb (bf s)) _ _ _) as [rb' [[? rv] rdd]]. destruct (buf_step 1 (wb (bf s)) _ _ _) as [wb' [[? wv] wrr]].
    destruct (buf_step 1 (ad (bf s)) _ _ _) as [ad' [[r v2] y]].
    match goal with |- context [let '(_, _) := ?e in _] => destruct e as [c' v'] end. cbn. auto 10.
  Qed.
  Lemma avx_rd BURST CW (is : list In_) : forall (s : St) p, Pend 1 (rb (bf s)) p ->
    map r_avl (trace (step BURST CW) s is) = firstn (length is) (p ++ map r_axi (trace (step BURST CW) s is)).
  Proof.
    induction is as [|i is IH]; intros s p H; [reflexivity|]. rewrite trace_cons, !map_cons.
    pose proof (pend_step 1 (rb (bf s)) p (x_rv i) (x_rd i) H) as N. destruct (avx_parts BURST CW s i) as (E1 & E2 & _ & _ & E3 & _).
    destruct (buf_step 1 (rb (bf s)) _ _ _) as [b' [[r ov] od]]. destruct N as (y & p' & -> & <- & N). cbn [length firstn app]. rewrite E1. f_equal.
    cbn [fst] in E2. rewrite <- E2 in N. rewrite (IH _ _ N), <- app_assoc. unfold r_axi at 2. cbn [fst snd]. rewrite E3, andb_true_r. reflexivity.
  Qed.
  Lemma avx_b BURST CW (is : list In_) : Forall (fun i => x_bresp i < 4) is -> forall (s : St) p, Pend 1 (wb (bf s)) p ->
    map b_avl (trace (step BURST CW) s is) = firstn (length is) (p ++ map b_axi (trace (step BURST CW) s is)).
  Proof.
    induction 1 as [|i is Hi _ IH]; intros s p H; [reflexivity|]. rewrite trace_cons, !map_cons.
    pose proof (pend_step 1 (wb (bf s)) p (x_bv i) (resp_map (x_bresp i)) H) as N. destruct (avx_parts BURST CW s i) as (_ & _ & E1 & E2 & _ & E3).
    destruct (buf_step 1 (wb (bf s)) _ _ _) as [b' [[r ov] od]]. destruct N as (y & p' & -> & <- & N). cbn [length firstn app]. rewrite E1. f_equal.
    cbn [fst] in E2. rewrite <- E2 in N. rewrite (IH _ _ N), <- app_assoc. unfold b_axi at 2. cbn [fst snd]. rewrite E3, andb_true_r.
    replace (if x_bresp i <? 2 then 0 else x_bresp i) with (resp_map (x_bresp i)); [reflexivity|].
    destruct (x_bresp i) as [|[|[|[|k]]]]; try reflexivity. lia.
  Qed.
  Lemma avx_answers BURST CW m1 x1 m2 x2 m3 x3 (is : list In_) : Forall (fun i => x_bresp i < 4) is -> let t := trace (step BURST CW) (avx_init m1 x1 m2 x2 m3 x3) is in
    delayed 1 (map r_axi t) (map r_avl t) /\ delayed 1 (map b_axi t) (map b_avl t) /\ Forall (fun c => y_rr (snd c) = true /\ y_br (snd c) = true) t.
  Proof.
    intros H t. unfold delayed. rewrite !map_length. unfold t. rewrite trace_length. split; [|split].
    - apply avx_rd. apply (mk_pend 1 m2 x2). left. reflexivity.
    - apply avx_b; [exact H|]. apply (mk_pend 1 m3 x3). left. reflexivity.
    - clear. generalize (avx_init m1 x1 m2 x2 m3 x3) as s. induction is as [|i is IH]; intros s; [constructor|]. rewrite trace_cons. constructor; [|apply IH].
      destruct (avx_parts BURST CW s i) as (_ & _ & _ & _ & A & B). auto.
  Qed.
End Run.
