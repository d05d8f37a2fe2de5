From Verif Require Import Base BaseFacts CdcModel CdcSpec.

Section P.
  Context {A : Type}.
  (** position of the token: 0-3 on the way to the consumer, 4 in rx_fsm, 5-8 on the way back, 9 idle *)
  Definition ph (n : nat) (x y : bool) (s : hc_st A) : Prop :=
    tx_rd s = (n =? 9) /\ rx_rd s = negb (n =? 4) /\ vld_del s = (n =? 5) /\
    din_en s = x /\ og_in s = xorb x (n =? 0) /\ og0 s = xorb x (n <=? 1) /\ og1 s = xorb x (n <=? 2) /\ og2 s = xorb x (n <=? 3) /\
    dout_ack s = y /\ ig_in s = xorb y (n =? 5) /\ ig0 s = xorb y ((5 <=? n) && (n <=? 6)) /\ ig1 s = xorb y ((5 <=? n) && (n <=? 7)) /\
    ig2 s = xorb y ((5 <=? n) && (n <=? 8)).
  Definition pend (n : nat) (s : hc_st A) : list A :=
    if n <=? 4 then [din_data s] else if n =? 5 then [dout_data s] else [].

  Definition taken1 (e : hc_ev A) (s : hc_st A) : list A := match he_in e with Some (true, d) => if tx_rd s then [d] else [] | _ => [] end.
  Definition given1 (e : hc_ev A) (s : hc_st A) : list A := match he_out e with Some true => if vld_del s then [dout_data s] else [] | _ => [] end.

  Definition nx (n : nat) (e : hc_ev A) : nat :=
    let i := match he_in e with Some _ => true | None => false end in
    let o := match he_out e with Some _ => true | None => false end in
    if n =? 9 then match he_in e with Some (true, _) => 0 | _ => 9 end
    else if n =? 0 then if i then if o && he_new_out e then 2 else 1 else 0
    else if n =? 5 then if o then if i && he_new_in e then 7 else 6 else 5
    else if n <=? 4 then if o then S n else n
    else if i then S n else n.

  Lemma hc_step_ok n x y s e : n <= 9 -> ph n x y s -> (forall r, he_out e = Some r -> r = true) ->
    exists x' y', nx n e <= 9 /\ ph (nx n e) x' y' (fst (hc_step s e)) /\
      pend n s ++ taken1 e s = given1 e s ++ pend (nx n e) (fst (hc_step s e)).
  Proof.
    intros Hn Hp Hr. destruct e as [ei eo ni no]. cbn [he_out] in Hr.
    assert (eo = None \/ eo = Some true) as Ho.
    { destruct eo as [r|]; [right; f_equal; apply Hr; reflexivity|left; reflexivity]. }
    clear Hr. destruct s as [f1 f2 f3 f4 f5 f6 f7 f8 f9 f10 f11 f12 f13 f14 f15].
    destruct Hp as (H1 & H2 & H3 & H4 & H5 & H6 & H7 & H8 & H9 & H10 & H11 & H12 & H13).
    cbn [tx_rd rx_rd vld_del din_en og_in og0 og1 og2 dout_ack ig_in ig0 ig1 ig2] in *. subst.
    exists (din_en (fst (hc_step (mk_hc (n =? 9) x f3 (xorb x (n =? 0)) (xorb y ((5 <=? n) && (n <=? 6))) (xorb y ((5 <=? n) && (n <=? 7))) (xorb y ((5 <=? n) && (n <=? 8))) (negb (n =? 4)) y f10 (n =? 5) (xorb y (n =? 5)) (xorb x (n <=? 1)) (xorb x (n <=? 2)) (xorb x (n <=? 3))) (mk_hev ei eo ni no)))), (if match eo with Some _ => true | None => false end then xorb y (n =? 4) else y).
    destruct ei as [[[] d]|], Ho as [-> | ->]; destruct n as [|[|[|[|[|[|[|[|[|[|n]]]]]]]]]]; try (exfalso; lia);
      destruct ni, no;      (split; [apply Nat.leb_le; reflexivity|split; [destruct x, y; vm_compute; repeat split|destruct x, y; vm_compute; reflexivity]]).
  Qed.

  Definition busy_in (n : nat) : bool := (n =? 0) || (6 <=? n) && (n <=? 8).
  Definition busy_out (n : nat) : bool := (1 <=? n) && (n <=? 5).
  Lemma nx_prog n e : n < 9 -> n <= nx n e /\ nx n e <= 9 /\ (busy_in n = true -> he_in e <> None -> n < nx n e) /\ (busy_out n = true -> he_out e <> None -> n < nx n e).
  Proof.
    intros Hn. destruct e as [ei eo ni no]. unfold nx, busy_in, busy_out. cbn [he_in he_out he_new_in he_new_out].
    do 9 (destruct n as [|n]; [destruct ei as [[[] ?]|], eo, ni, no; cbn; repeat split; intros; try discriminate; try congruence; lia|]). lia.
  Qed.

  Lemma hc_out_vals s (e : hc_ev A) : snd (hc_step s e) = mk_ho (tx_rd s) (vld_del s) (dout_data s).
  Proof. reflexivity. Qed.

  Lemma hc_run : forall es n x y s, n <= 9 -> ph n x y s -> always_ready es ->
    exists n' x' y', n' <= 9 /\ ph n' x' y' (final hc_step s es) /\
      pend n s ++ cdc_taken (trace hc_step s es) = cdc_given (trace hc_step s es) ++ pend n' (final hc_step s es).
  Proof.
    induction es as [|e es IH]; intros n x y s Hn Hp Hr.
    - exists n, x, y. split; [exact Hn|]. split; [exact Hp|]. rewrite app_nil_r. reflexivity.
    - destruct (hc_step_ok n x y s e Hn Hp) as (x' & y' & Hn' & Hp' & E).
      { intros r H. apply (Hr e r); [left; reflexivity|exact H]. }
      destruct (IH (nx n e) x' y' (fst (hc_step s e)) Hn' Hp') as (n2 & x2 & y2 & G1 & G2 & G3).
      { intros e0 r H. apply Hr. right. exact H. }
      exists n2, x2, y2. rewrite final_cons, trace_cons. split; [exact G1|]. split; [exact G2|].
      change (cdc_taken ((e, snd (hc_step s e)) :: ?t)) with (taken1 e s ++ cdc_taken t).
      change (cdc_given ((e, snd (hc_step s e)) :: ?t)) with (given1 e s ++ cdc_given t).
      rewrite app_assoc, E, <- !app_assoc. f_equal. exact G3.
  Qed.

  (** phases of a run which never becomes idle *)
  Fixpoint nxs (n : nat) (es : list (hc_ev A)) : nat := match es with [] => n | e :: es' => nxs (nx n e) es' end.

  Lemma hc_run_ph : forall es n x y s, n <= 9 -> ph n x y s -> always_ready es ->
    exists x' y', nxs n es <= 9 /\ ph (nxs n es) x' y' (final hc_step s es).
  Proof.
    induction es as [|e es IH]; intros n x y s Hn Hp Hr.
    - exists x, y. split; assumption.
    - destruct (hc_step_ok n x y s e Hn Hp) as (x' & y' & Hn' & Hp' & E).
      { intros r H. apply (Hr e r); [left; reflexivity|exact H]. }
      rewrite final_cons. cbn [nxs]. apply (IH (nx n e) x' y'); [exact Hn'|exact Hp'|]. intros e0 r H. apply Hr. right. exact H.
  Qed.

  Definition reaches9 n es := exists p q, es = p ++ q /\ nxs n p = 9.
  Lemma nxs_app p q n : nxs n (p ++ q) = nxs (nxs n p) q.
  Proof. revert n. induction p as [|e p IH]; intros n; [reflexivity|apply IH]. Qed.

  Lemma seg_in : forall es n lo, lo <= n -> n <= 9 -> (lo <= 0 \/ 6 <= lo) ->
    reaches9 n es \/ (nxs n es < 9 /\ n <= nxs n es /\ (lo = 0 -> 1 <= in_edges es -> 1 <= nxs n es) /\ (6 <= lo -> n + in_edges es <= nxs n es)).
  Proof.
    induction es as [|e es IH]; intros n lo Hl Hn Hlo.
    - destruct (Nat.eq_dec n 9) as [->|Hd]; [left; exists [], []; split; reflexivity|]. right. cbn [nxs in_edges filter length]. repeat split; intros; lia.
    - destruct (Nat.eq_dec n 9) as [->|Hd]; [left; exists [], (e :: es); split; reflexivity|].
      destruct (nx_prog n e) as (P1 & P2 & P3 & P4); [lia|].
      destruct (IH (nx n e) lo ltac:(lia) P2 Hlo) as [(p & q & E1 & E2)|(Q1 & Q2 & Q3 & Q4)].
      + left. exists (e :: p), q. split; [rewrite E1; reflexivity|exact E2].
      + right. cbn [nxs in_edges filter length] in *. unfold in_edges in *. destruct (he_in e) eqn:Ei; cbn [length].
        * assert (busy_in n = true -> n < nx n e) as P3' by (intros HB; apply P3; [exact HB|discriminate]).
          split; [exact Q1|]. split; [lia|]. split; intros HL.
          -- intros _. destruct n; [specialize (P3' eq_refl); lia|lia].
          -- specialize (Q4 HL). assert (busy_in n = true) as HB; [|specialize (P3' HB); lia].
             unfold busy_in. destruct n as [|[|[|[|[|[|[|[|[|]]]]]]]]]; try reflexivity; lia.
        * split; [exact Q1|]. split; [lia|]. split; intros HL; [intros HE; specialize (Q3 HL HE); lia|specialize (Q4 HL); lia].
  Qed.

  Lemma seg_out : forall es n, 1 <= n -> n <= 9 ->
    reaches9 n es \/ (nxs n es < 9 /\ n <= nxs n es /\ (n + out_edges es <= nxs n es \/ 6 <= nxs n es)).
  Proof.
    induction es as [|e es IH]; intros n Hl Hn.
    - destruct (Nat.eq_dec n 9) as [->|Hd]; [left; exists [], []; split; reflexivity|]. right. cbn [nxs out_edges filter length]. repeat split; lia.
    - destruct (Nat.eq_dec n 9) as [->|Hd]; [left; exists [], (e :: es); split; reflexivity|].
      destruct (nx_prog n e) as (P1 & P2 & P3 & P4); [lia|].
      destruct (IH (nx n e) ltac:(lia) P2) as [(p & q & E1 & E2)|(Q1 & Q2 & Q3)].
      + left. exists (e :: p), q. split; [rewrite E1; reflexivity|exact E2].
      + right. cbn [nxs]. split; [exact Q1|]. split; [lia|]. unfold out_edges in *. cbn [filter]. destruct (he_out e) eqn:Ei; cbn [length].
        * destruct Q3 as [Q3|Q3]; [|right; exact Q3]. destruct (le_lt_dec 6 n); [right; lia|]. left.
          assert (n < nx n e); [|lia]. apply P4; [|discriminate]. unfold busy_out. destruct n as [|[|[|[|[|[|]]]]]]; try reflexivity; lia.
        * destruct Q3 as [Q3|Q3]; [left; lia|right; exact Q3].
  Qed.

  Lemma seg_all n e1 e2 e3 : n <= 9 -> 1 <= in_edges e1 -> 5 <= out_edges e2 -> 3 <= in_edges e3 -> reaches9 n (e1 ++ e2 ++ e3).
  Proof.
    intros Hn H1 H2 H3. unfold reaches9.
    destruct (seg_in e1 n 0 ltac:(lia) Hn ltac:(lia)) as [(p & q & E1 & E2)|(Q1 & Q2 & Q3 & _)].
    { exists p, (q ++ e2 ++ e3). split; [rewrite E1, <- app_assoc; reflexivity|exact E2]. }
    specialize (Q3 eq_refl H1).
    destruct (seg_out e2 (nxs n e1) Q3 ltac:(lia)) as [(p & q & E1 & E2)|(R1 & R2 & R3)].
    { exists (e1 ++ p), (q ++ e3). split; [rewrite E1, <- !app_assoc; reflexivity|rewrite nxs_app; exact E2]. }
    assert (6 <= nxs (nxs n e1) e2) as R4 by lia.
    destruct (seg_in e3 (nxs (nxs n e1) e2) 6 R4 ltac:(lia) ltac:(lia)) as [(p & q & E1 & E2)|(S1 & S2 & _ & S4)].
    { exists (e1 ++ e2 ++ p), q. split; [rewrite E1, <- !app_assoc; reflexivity|rewrite !nxs_app; exact E2]. }
    specialize (S4 ltac:(lia)). lia.
  Qed.
End P.

Lemma hc_init_ph {A} (a b : A) : ph 9 false false (hc_init a b).
Proof. repeat split. Qed.

Lemma c31_ready : forall (A : Type) (a b : A) (es : list (hc_ev A)), always_ready es ->
  let t := trace hc_step (hc_init a b) es in
  exists inside, cdc_taken t = cdc_given t ++ inside /\ length inside <= 1.
Proof.
  intros A a b es Hr t.
  destruct (hc_run es 9 false false (hc_init a b) ltac:(lia) (hc_init_ph a b) Hr) as (n & x & y & Hn & Hp & E).
  exists (pend n (final hc_step (hc_init a b) es)). split; [exact E|]. unfold pend. destruct (n <=? 4); [cbn; lia|]. destruct (n =? 5); cbn; lia.
Qed.

Lemma always_ready_app {A} (l1 l2 : list (hc_ev A)) : always_ready (l1 ++ l2) -> always_ready l1.
Proof. intros H e r Hi. apply H. apply in_or_app. left. exact Hi. Qed.

Lemma c31_live : forall (A : Type) (a b : A) (es e1 e2 e3 : list (hc_ev A)) (e : hc_ev A),
  always_ready (es ++ e1 ++ e2 ++ e3) -> 1 <= in_edges e1 -> 5 <= out_edges e2 -> 3 <= in_edges e3 ->
  exists p q, e1 ++ e2 ++ e3 = p ++ q /\
    ho_rd (snd (hc_step (final hc_step (hc_init a b) (es ++ p)) e)) = true /\
    cdc_taken (trace hc_step (hc_init a b) (es ++ p)) = cdc_given (trace hc_step (hc_init a b) (es ++ p)).
Proof.
  intros A a b es e1 e2 e3 e Hr H1 H2 H3.
  destruct (hc_run_ph es 9 false false (hc_init a b) ltac:(lia) (hc_init_ph a b) (always_ready_app _ _ Hr)) as (x & y & Hn & Hp).
  destruct (seg_all (nxs 9 es) e1 e2 e3 Hn H1 H2 H3) as (p & q & E & E9).
  exists p, q. split; [exact E|].
  rewrite E, app_assoc in Hr. apply always_ready_app in Hr.
  destruct (hc_run_ph (es ++ p) 9 false false (hc_init a b) ltac:(lia) (hc_init_ph a b) Hr) as (x2 & y2 & Hn2 & Hp2).
  rewrite nxs_app, E9 in Hp2. rewrite hc_out_vals. cbn [ho_rd]. split; [apply Hp2|].
  destruct (hc_run (es ++ p) 9 false false (hc_init a b) ltac:(lia) (hc_init_ph a b) Hr) as (n3 & x3 & y3 & Hn3 & Hp3 & E3).
  cbn [pend app] in E3. change (pend 9 (hc_init a b)) with (@nil A) in E3. cbn [app] in E3. rewrite E3.
  assert (n3 = 9) as ->. { destruct Hp2 as (T1 & _). destruct Hp3 as (T2 & _). rewrite T1 in T2. symmetry in T2. apply Nat.eqb_eq in T2. exact T2. }
  apply app_nil_r.
Qed.

(** * Examples *)
Definition ei (d : nat) : hc_ev nat := mk_hev (Some (true, d)) None false false.
Definition en : hc_ev nat := mk_hev (Some (false, 0)) None false false.
Definition eo (r : bool) : hc_ev nat := mk_hev None (Some r) false false.
Definition eb (d : nat) (r ni no : bool) : hc_ev nat := mk_hev (Some (true, d)) (Some r) ni no.
Definition ex31 : list (hc_ev nat) :=
  [ei 7; ei 8; eo true; eo true; eo true; eo true; eo true; eo true; ei 8; ei 8; ei 8; eb 9 true false true; eb 10 true true true; eb 10 true true true;
   eb 10 true false false; eb 10 true false false; eb 10 true true false; eb 10 true true false; eb 10 true true false; eb 10 true true false; eb 11 true true false].
(** the consumer is not ready when the word arrives *)
Definition ex31_bad : list (hc_ev nat) :=
  [ei 7; en; eo true; eo true; eo true; eo false; eo false; eo true; eo false; eo true; eo true; en; en; en; en].
Lemma ex31_ready : always_ready ex31.
Proof. intros e r Hi. vm_compute in Hi. repeat (destruct Hi as [<-|Hi]; [cbn; congruence|]). contradiction. Qed.
Lemma ex31_live_ready : always_ready ([] ++ [ei 7; en] ++ repeat (eo true) 5 ++ [en; en; en]).
Proof. intros e r Hi. vm_compute in Hi. repeat (destruct Hi as [<-|Hi]; [cbn; congruence|]). contradiction. Qed.

Lemma c31_bad : exists (es : list (hc_ev nat)),
  let t := trace hc_step (hc_init 0 0) es in
  cdc_taken t = [7] /\ cdc_given t = [0] /\
  forall n, cdc_given (trace hc_step (hc_init 0 0) (es ++ repeat (eo true) n)) = [0] /\
            forall e, ho_rd (snd (hc_step (final hc_step (hc_init 0 0) es) e)) = true.
Proof.
  exists ex31_bad. split; [vm_compute; reflexivity|]. split; [vm_compute; reflexivity|]. intros n.
  assert (final hc_step (hc_init 0 0) ex31_bad = mk_hc true true 7 true true true true true true 7 false true true true true) as E by (vm_compute; reflexivity).
  split; [|intros e; rewrite hc_out_vals, E; reflexivity].
  rewrite trace_app, E. unfold cdc_given. rewrite flat_map_app.
  replace (flat_map _ (trace hc_step (hc_init 0 0) ex31_bad)) with [0] by (vm_compute; reflexivity).
  set (s := mk_hc _ _ _ _ _ _ _ _ _ _ _ _ _ _ _).
  assert (fst (hc_step s (eo true)) = s) as F by reflexivity.
  induction n as [|n IH]; [reflexivity|]. cbn [repeat]. rewrite trace_cons, F. cbn [flat_map]. exact IH.
Qed.
