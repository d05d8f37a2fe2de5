From Verif Require Import Base BaseFacts RtrModel RtrSpec.
From Coq Require Import Lia.

Section Queue.
  Context {D : Type}.
  Variable n : nat.
  Notation rtr := (rtr (D := D)).
  Notation rtr_in := (rtr_in (D := D)).
  (** words and metadata under way *)
  Definition dc (s : rtr) : list D := (if rdv s then [rdat s] else []) ++ (if ov s then [odat s] else []) ++ (if pend s then [dout s] else []).
  Definition mc (s : rtr) : list meta := (if m1v s then [m1 s] else []) ++ (if m0v s then [m0 s] else []).
  Definition pop (s : rtr) (i : rtr_in) : bool := rdv s && m1v s && out_ok s i.
  Definition issue (s : rtr) (i : rtr_in) : bool := da_vld s i && da_rdy s i.
  Definition winv (s : rtr) : Prop := (pend s = true -> ov s = false) /\ (ov s = true -> rdv s = true).

  Lemma next_fields s i :
    mem (rtr_next n s i) = (if dw_vld s i then upd (mem s) (dw_addr n s i) (wd_put i (mem s (dw_addr n s i))) else mem s) /\
    dout (rtr_next n s i) = (if issue s i then mem s (da_addr n s i) else dout s) /\ pend (rtr_next n s i) = issue s i /\
    rdv (rtr_next n s i) = fst (fst (fst (read_regs' s i))) /\ rdat (rtr_next n s i) = snd (fst (fst (read_regs' s i))) /\
    ov (rtr_next n s i) = snd (fst (read_regs' s i)) /\ odat (rtr_next n s i) = snd (read_regs' s i) /\
    m0v (rtr_next n s i) = (if m0i_rdy s i then m0i_vld s i else m0v s) /\
    m0 (rtr_next n s i) = (if m0i_rdy s i && m0i_vld s i then meta_in n s i else m0 s) /\
    m1v (rtr_next n s i) = (if m1i_rdy s i then m0v s else m1v s) /\
    m1 (rtr_next n s i) = (if m1i_rdy s i && m0v s then m0 s else m1 s) /\
    (r_item (rtr_next n s i), r_word (rtr_next n s i), r_v (rtr_next n s i)) = r_index' n s i /\
    (w_item (rtr_next n s i), w_word (rtr_next n s i), w_v (rtr_next n s i), w_fl (rtr_next n s i)) = w_index' n s i.
  Proof.
    unfold rtr_next. destruct (read_regs' s i) as [[[? ?] ?] ?]. destruct (r_index' n s i) as [[? ?] ?].
    destruct (w_index' n s i) as [[[? ?] ?] ?]. repeat split.
  Qed.
  Lemma issue_m0 s i : issue s i = m0i_vld s i && m0i_rdy s i.
  Proof. unfold issue, da_vld, m0i_vld. destruct (ra_vld i || skip_ra s i), (m0i_rdy s i), (r_en s i), (da_rdy s i); reflexivity. Qed.

  Lemma queue_step s i : winv s -> winv (rtr_next n s i) /\
    dc (rtr_next n s i) = (if pop s i then tl (dc s) else dc s) ++ (if issue s i then [mem s (da_addr n s i)] else []) /\
    mc (rtr_next n s i) = (if pop s i then tl (mc s) else mc s) ++ (if issue s i then [meta_in n s i] else []).
  Proof.
    intros [H1 H2]. destruct (next_fields s i) as (_ & E1 & E2 & E3 & E4 & E5 & E6 & E7 & E8 & E9 & E10 & _ & _).
    assert (Hda : issue s i = true -> da_rdy s i = true) by (unfold issue; destruct (da_rdy s i); [auto|rewrite Bool.andb_false_r; discriminate]).
    assert (Hm0 : issue s i = true -> m0i_rdy s i = true) by (rewrite issue_m0; destruct (m0i_rdy s i); [auto|rewrite Bool.andb_false_r; discriminate]).
    unfold winv, dc, mc. rewrite E1, E2, E3, E4, E5, E6, E7, E8, E9, E10.
    unfold read_regs', pop. rewrite issue_m0 in *. unfold da_rdy, m0i_rdy, m1i_rdy, m1o_rdy, dd_rdy in *.
    destruct (pend s), (rdv s), (ov s); cbn [andb orb negb] in *;
      try (specialize (H1 eq_refl); discriminate); try (specialize (H2 eq_refl); discriminate); clear H1 H2;
      destruct (m1v s), (m0v s), (out_ok s i), (m0i_vld s i); cbn [andb orb negb fst snd app tl] in *;
      try (specialize (Hda eq_refl)); try (specialize (Hm0 eq_refl)); try discriminate;
      repeat split; try reflexivity; try discriminate.
  Qed.

  (** what is handed over is the head of the queue *)
  Lemma out_pop s i :
    (if rd_rdy i then match r_data (rtr_out_of s i) with Some x => [x] | None => [] end else []) =
      (if pop s i && negb (m_fl (m1 s)) then [(m_rpriv (m1 s), rdat s, m_last (m1 s))] else []) /\
    (if fa_rdy i then match f_addr (rtr_out_of s i) with Some x => [x] | None => [] end else []) =
      (if pop s i && m_fl (m1 s) && m_first (m1 s) then [(m_wpriv (m1 s), m_addr (m1 s))] else []) /\
    (if fd_rdy i then match f_data (rtr_out_of s i) with Some x => [x] | None => [] end else []) =
      (if pop s i && m_fl (m1 s) then [(rdat s, m_last (m1 s))] else []).
  Proof.
    unfold rtr_out_of, r_vld, fa_vld, fd_vld, pop, out_ok, skip_r, skip_fa, skip_fd. cbn [r_data f_addr f_data].
    destruct (rdv s), (m1v s), (m_fl (m1 s)), (m_first (m1 s)), (rd_rdy i), (fa_rdy i), (fd_rdy i); repeat split; reflexivity.
  Qed.
End Queue.

(** ** items of one word *)
Section One.
  Context {D : Type}.
  Notation rtr := (rtr (D := D)).
  Notation rtr_in := (rtr_in (D := D)).
  Notation cyc := (rtr_in * rtr_out (D := D))%type.
  Inductive ent := ERead (id : nat) (d : D) | EFlush (p a : nat) (d : D).
  Definition e_d (e : ent) : D := match e with ERead _ d => d | EFlush _ _ d => d end.
  Definition meta_of (e : ent) (m : meta) : Prop :=
    match e with
    | ERead id _ => m_rpriv m = Some id /\ m_fl m = false /\ m_last m = true
    | EFlush p a _ => m_wpriv m = Some p /\ m_addr m = Some a /\ m_fl m = true /\ m_last m = true /\ m_first m = true
    end.
  Definition as_r (q : list ent) : list (option nat * D * bool) := flat_map (fun e => match e with ERead id d => [(Some id, d, true)] | _ => [] end) q.
  Definition as_f (q : list ent) : list (nat * nat * D) := flat_map (fun e => match e with EFlush p a d => [(p, a, d)] | _ => [] end) q.

  Definition one (s : rtr) : Prop := r_v s = false /\ w_v s = false /\ r_word s = 0 /\ w_word s = 0.
  Lemma one_step s i : one s -> one (rtr_next 1 s i).
  Proof.
    intros (H1 & H2 & H3 & H4). destruct (next_fields 1 s i) as (_ & _ & _ & _ & _ & _ & _ & _ & _ & _ & _ & Hr & Hw).
    unfold r_index' in Hr. unfold w_index' in Hw. rewrite H1, H3 in Hr. rewrite H2, H4 in Hw. cbn in Hr, Hw.
    unfold one. destruct (r_ack s i), (w_ack s i); injection Hr as _ -> ->; injection Hw as _ -> -> _; repeat split;
      destruct (flush_req s i); try reflexivity; apply Bool.andb_false_r.
  Qed.

  Definition qinv (s : rtr) (q : list ent) : Prop := winv s /\ one s /\ dc s = map e_d q /\ Forall2 meta_of q (mc s).
  Definition new_of (m : nat -> D) (c : cyc) : list ent :=
    (if read_acc c then [ERead (ra_id (fst c)) (m (ra_addr (fst c)))] else []) ++
    (if write_acc c && wa_flush (fst c) then [EFlush (wa_priv (fst c)) (wa_addr (fst c)) (m (wa_addr (fst c)))] else []).

  Lemma qinv_step s i q : qinv s q -> (wa_vld i && wa_flush i = true -> wa_rdy (rtr_out_of s i) = true) ->
    let c := (i, rtr_out_of s i) in
    mem (rtr_next 1 s i) = mem_after (mem s) c /\
    qinv (rtr_next 1 s i) ((if pop s i then tl q else q) ++ new_of (mem s) c).
  Proof.
    intros (Hw & Ho & Hd & Hm) Hg c. pose proof Ho as (H1 & H2 & H3 & H4).
    destruct (queue_step 1 s i Hw) as (Hw' & Hd' & Hm').
    destruct (next_fields 1 s i) as (Em & _).
    cbn [wa_rdy rtr_out_of] in Hg.
    assert (Hfr : flush_req s i = wa_vld i && wa_flush i) by (unfold flush_req; rewrite H1, H2; now rewrite !Bool.andb_true_r).
    assert (Hwa : wa_vld i && wa_ok s i = dw_vld s i).
    { unfold dw_vld. rewrite H2, Bool.orb_false_r. unfold wa_ok, w_addr_en in *. rewrite H2 in *.
      destruct (wa_vld i), (wa_flush i), (wd_vld i); try reflexivity; cbn in *;
        specialize (Hg eq_refl); first [discriminate|exact Hg]. }
    assert (Hda : dw_addr 1 s i = wa_addr i) by (unfold dw_addr; rewrite H2; lia).
    split.
    { rewrite Em, Hda. unfold mem_after, write_acc, c. cbn [fst snd wa_rdy rtr_out_of]. now rewrite Hwa. }
    assert (Hnew : (if issue s i then [mem s (da_addr 1 s i)] else []) = map e_d (new_of (mem s) c) /\
                   Forall2 meta_of (new_of (mem s) c) (if issue s i then [meta_in 1 s i] else [])).
    { unfold new_of, read_acc, write_acc, c. cbn [fst snd wa_rdy ra_rdy rtr_out_of].
      unfold ra_ok, issue, da_vld, skip_ra, r_en, da_addr, meta_in, flush_pending. rewrite H1, H2, Hfr.
      destruct (wa_vld i && wa_flush i) eqn:Ef.
      - specialize (Hg eq_refl). apply andb_prop in Ef. destruct Ef as [Ev Ef]. rewrite Ev, Ef, Hg.
        unfold wa_ok, w_addr_en in Hg. rewrite H1, H2, Ev, Ef in Hg. cbn in Hg.
        destruct (da_rdy s i); [|destruct (wd_vld i); discriminate]. destruct (m0i_rdy s i); [|destruct (wd_vld i); discriminate].
        destruct (ra_vld i); cbn; rewrite ?Nat.mul_1_r; split; try reflexivity; repeat constructor.
      - assert (wa_vld i && wa_ok s i && wa_flush i = false) as -> by (destruct (wa_vld i), (wa_flush i); try discriminate; rewrite ?Bool.andb_false_r; reflexivity).
        destruct (ra_vld i), (da_rdy s i), (m0i_rdy s i); cbn; rewrite ?Nat.mul_1_r; split; try reflexivity; repeat constructor. }
    destruct Hnew as [Hn1 Hn2]. split; [exact Hw'|]. split; [now apply one_step|]. split.
    - rewrite Hd', Hn1, map_app, Hd. f_equal. destruct (pop s i); [|reflexivity]. now destruct q.
    - rewrite Hm'. apply Forall2_app; [|exact Hn2]. destruct (pop s i); [|exact Hm]. inversion Hm; cbn; [constructor|assumption].
  Qed.

  Lemma pop_head s i q : qinv s q -> pop s i = true -> exists e q', q = e :: q' /\ rdat s = e_d e /\ meta_of e (m1 s).
  Proof.
    intros (_ & _ & Hd & Hm) Hp. unfold pop in Hp. unfold dc in Hd. unfold mc in Hm.
    destruct (rdv s); [|discriminate]. destruct (m1v s); [|discriminate]. destruct q as [|e q]; [discriminate|].
    cbn [app map] in *. injection Hd as Hd _. inversion Hm; subst. eauto.
  Qed.
  Lemma handed s i q : qinv s q ->
    let out := if pop s i then firstn 1 q else [] in
    (if rd_rdy i then match r_data (rtr_out_of s i) with Some x => [x] | None => [] end else []) = as_r out /\
    (if fa_rdy i then match f_addr (rtr_out_of s i) with Some x => [x] | None => [] end else []) = map (fun x => (Some (fst (fst x)), Some (snd (fst x)))) (as_f out) /\
    (if fd_rdy i then match f_data (rtr_out_of s i) with Some x => [x] | None => [] end else []) = map (fun x => (snd x, true)) (as_f out) /\
    out ++ (if pop s i then tl q else q) = q.
  Proof.
    intros Hq out. destruct (out_pop s i) as (-> & -> & ->). unfold out. destruct (pop s i) eqn:Ep; [|repeat split].
    destruct (pop_head _ _ _ Hq Ep) as (e & q' & -> & Hd & Hm). cbn [firstn tl app].
    destruct e; cbn [meta_of e_d] in *.
    - destruct Hm as (-> & -> & ->). rewrite Hd. repeat split.
    - destruct Hm as (-> & -> & -> & -> & ->). rewrite Hd. repeat split.
  Qed.

  Fixpoint all_new (m : nat -> D) (t : list cyc) : list ent :=
    match t with [] => [] | c :: t' => new_of m c ++ all_new (mem_after m c) t' end.
  Lemma as_r_app a b : as_r (a ++ b) = as_r a ++ as_r b. Proof. apply flat_map_app. Qed.
  Lemma as_f_app a b : as_f (a ++ b) = as_f a ++ as_f b. Proof. apply flat_map_app. Qed.
  Lemma as_r_new m c : as_r (new_of m c) = if read_acc c then [(Some (ra_id (fst c)), m (ra_addr (fst c)), true)] else [].
  Proof. unfold new_of. rewrite as_r_app. destruct (read_acc c), (write_acc c && wa_flush (fst c)); reflexivity. Qed.
  Lemma as_f_new m c : as_f (new_of m c) = if write_acc c && wa_flush (fst c) then [(wa_priv (fst c), wa_addr (fst c), m (wa_addr (fst c)))] else [].
  Proof. unfold new_of. rewrite as_f_app. destruct (read_acc c), (write_acc c && wa_flush (fst c)); reflexivity. Qed.
  Lemma as_r_all : forall t m, as_r (all_new m t) = reads m t.
  Proof. induction t as [|c t IH]; intros m; [reflexivity|]. cbn [all_new reads]. now rewrite as_r_app, as_r_new, IH. Qed.
  Lemma as_f_all : forall t m, as_f (all_new m t) = flushes m t.
  Proof. induction t as [|c t IH]; intros m; [reflexivity|]. cbn [all_new flushes]. now rewrite as_f_app, as_f_new, IH. Qed.

  Lemma run_one : forall is s q, qinv s q -> flush_at_once (trace (rtr_step 1) s is) ->
    let t := trace (rtr_step 1) s is in
    mem (final (rtr_step 1) s is) = memory (mem s) t /\
    exists out q', qinv (final (rtr_step 1) s is) q' /\ q ++ all_new (mem s) t = out ++ q' /\
      got_r t = as_r out /\ got_fa t = map (fun x => (Some (fst (fst x)), Some (snd (fst x)))) (as_f out) /\
      got_fd t = map (fun x => (snd x, true)) (as_f out).
  Proof.
    induction is as [|i is IH]; intros s q Hq Hg; cbv zeta.
    - split; [reflexivity|]. exists [], q. cbn. rewrite app_nil_r. auto.
    - rewrite trace_cons in *. rewrite final_cons. cbn [rtr_step fst snd] in *.
      destruct (qinv_step s i q Hq (Forall_inv Hg)) as [Em Hq']. cbv zeta in *. cbn [fst snd] in *.
      destruct (IH _ _ Hq' (Forall_inv_tail Hg)) as (Hmem & out & q' & A & B & C & E & F).
      destruct (handed s i q Hq) as (X & Y & Z & W).
      set (o := if pop s i then firstn 1 q else []) in *.
      split; [cbn [memory]; rewrite <- Em; exact Hmem|].
      exists (o ++ out), q'. split; [exact A|]. cbn [all_new]. rewrite <- Em. split.
      { rewrite <- app_assoc, <- B. rewrite !app_assoc. f_equal. rewrite W. reflexivity. }
      unfold got_r, got_fa, got_fd in *. cbn [flat_map fst snd]. rewrite as_r_app, as_f_app, !map_app. rewrite C, E, F, X, Y, Z. auto.
  Qed.

  Lemma init_qinv m a b c x y p q : qinv (rtr_init m a b c x y p q) [].
  Proof. repeat split; try reflexivity; try discriminate; constructor. Qed.

  Lemma as_r_len q : length (as_r q) <= length q.
  Proof. unfold as_r, as_f in *. induction q as [|[] q IH]; cbn [flat_map length app]; lia. Qed.
  Lemma as_f_len q : length (as_f q) <= length q.
  Proof. unfold as_r, as_f in *. induction q as [|[] q IH]; cbn [flat_map length app]; lia. Qed.
  Lemma Forall2_len {A B} (R : A -> B -> Prop) l l' : Forall2 R l l' -> length l = length l'.
  Proof. induction 1; cbn; congruence. Qed.
  Lemma qinv_len s q : qinv s q -> length q <= 2.
  Proof. intros (_ & _ & _ & H). apply Forall2_len in H. rewrite H. unfold mc. destruct (m1v s), (m0v s); cbn; lia. Qed.

  Lemma atomic (m : nat -> D) a b c x y p q (is : list rtr_in) : let s0 : rtr := rtr_init m a b c x y p q in let t := trace (rtr_step 1) s0 is in
    flush_at_once t ->
    mem (final (rtr_step 1) s0 is) = memory m t /\
    (exists r, reads m t = got_r t ++ r /\ length r <= 2) /\
    (exists f g, flushes m t = f ++ g /\ length g <= 2 /\
       got_fa t = map (fun x => (Some (fst (fst x)), Some (snd (fst x)))) f /\ got_fd t = map (fun x => (snd x, true)) f).
  Proof.
    intros s0 t Hg. destruct (run_one is s0 [] (init_qinv _ _ _ _ _ _ _ _) Hg) as (Hm & out & q' & A & B & C & E & F). cbv zeta in *. fold t in Hm, B, C, E, F.
    cbn [app] in B. change (mem s0) with m in *. split; [exact Hm|].
    pose proof (qinv_len _ _ A). pose proof (as_r_len q'). pose proof (as_f_len q'). split.
    - exists (as_r q'). split; [|lia]. rewrite <- as_r_all, B, as_r_app, C. reflexivity.
    - exists (as_f out), (as_f q'). split; [|repeat split; auto; lia]. rewrite <- as_f_all, B, as_f_app. reflexivity.
  Qed.

  (** ** progress *)
  Lemma idle_new s i m : idle i -> new_of m (i, rtr_out_of s i) = [].
  Proof. intros (_ & H1 & H2). unfold new_of, read_acc, write_acc. cbn [fst snd]. rewrite H1, H2. reflexivity. Qed.
  Lemma idle_inv s i q : qinv s q -> idle i -> qinv (rtr_next 1 s i) (if pop s i then tl q else q) /\ mem (rtr_next 1 s i) = mem s.
  Proof.
    intros Hq Hi. destruct (qinv_step s i q Hq) as [Hm H]. { destruct Hi as (_ & _ & ->). discriminate. }
    cbv zeta in H. rewrite idle_new, app_nil_r in H by assumption. split; [exact H|]. rewrite Hm. unfold mem_after, write_acc. cbn [fst snd].
    destruct Hi as (_ & _ & ->). reflexivity.
  Qed.
  Lemma idle_head s i q : qinv s q -> idle i ->
    (rdv s && m1v s = true -> pop s i = true) /\
    (q <> [] -> (if pop s i then tl q else q) <> [] -> rdv (rtr_next 1 s i) && m1v (rtr_next 1 s i) = true).
  Proof.
    intros Hq Hi. pose proof Hq as ((W1 & W2) & Ho & Hd & Hm). destruct Ho as (Hrv & _ & _ & _). destruct Hi as (Hr & Ha & Hb).
    assert (Hok : out_ok s i = true) by (unfold out_ok; destruct (rd_rdy i), (fa_rdy i), (fd_rdy i); try discriminate; reflexivity).
    assert (L1 : length q = length (dc s)) by (rewrite Hd, map_length; reflexivity).
    assert (L2 : length q = length (mc s)) by (eapply Forall2_len; eauto).
    destruct (next_fields 1 s i) as (_ & _ & _ & E3 & _ & _ & _ & E7 & _ & E9 & _).
    rewrite E3, E9. unfold pop, read_regs', m1i_rdy, m1o_rdy, dd_rdy. rewrite Hok. split; [intros ->; reflexivity|].
    intros H0 H1. unfold dc, mc in *.
    destruct (rdv s), (m1v s), (m0v s), (ov s), (pend s); cbn in *; try reflexivity;
      try (specialize (W1 eq_refl); discriminate); try (specialize (W2 eq_refl); discriminate);
      destruct q as [|e1 [|e2 [|e3 q]]]; cbn in *; try lia; try congruence; try discriminate.
  Qed.
  Lemma idle_step s i q : qinv s q -> idle i -> exists q', qinv (rtr_next 1 s i) q' /\ mem (rtr_next 1 s i) = mem s /\
    (rdv s && m1v s = true -> q' = tl q) /\ (q' = q \/ q' = tl q) /\ (q' <> [] -> rdv (rtr_next 1 s i) && m1v (rtr_next 1 s i) = true).
  Proof.
    intros Hq Hi. destruct (idle_inv s i q Hq Hi) as [A B]. destruct (idle_head s i q Hq Hi) as [C E].
    exists (if pop s i then tl q else q). repeat split; auto; try apply A.
    - intros H. now rewrite (C H).
    - destruct (pop s i); auto.
    - intros H. apply E; [|exact H]. intros ->. destruct (pop s i); apply H; reflexivity.
  Qed.
  Lemma three_idle s i j k q : qinv s q -> idle i -> idle j -> idle k -> qinv (final (rtr_step 1) s [i; j; k]) [].
  Proof.
    intros Hq Hi Hj Hk. pose proof (qinv_len _ _ Hq) as Hl. rewrite !final_cons. cbn [rtr_step fst]. change (qinv (rtr_next 1 (rtr_next 1 (rtr_next 1 s i) j) k) []).
    destruct (idle_step s i q Hq Hi) as (q1 & A1 & _ & _ & D1 & E1).
    destruct (idle_step _ j q1 A1 Hj) as (q2 & A2 & _ & C2 & D2 & E2).
    destruct (idle_step _ k q2 A2 Hk) as (q3 & A3 & _ & C3 & D3 & E3).
    assert (L1 : length q1 <= 2) by (destruct D1 as [->| ->]; [lia|destruct q; cbn in *; lia]).
    assert (q3 = []) as <-; [|exact A3].
    destruct q1 as [|x1 q1]. { destruct D2 as [->| ->]; destruct D3 as [->| ->]; reflexivity. }
    specialize (C2 (E1 ltac:(discriminate))). cbn [tl] in C2. subst q2.
    destruct q1 as [|x2 q1]. { destruct D3 as [->| ->]; reflexivity. }
    specialize (C3 (E2 ltac:(discriminate))). subst q3. destruct q1; [reflexivity|cbn in L1; lia].
  Qed.

  Lemma idle_guard : forall is (s : rtr), Forall idle is -> flush_at_once (trace (rtr_step 1) s is).
  Proof.
    induction is as [|i is IH]; intros s H; [constructor|]. rewrite trace_cons. constructor; [|apply IH; exact (Forall_inv_tail H)].
    cbn [fst]. destruct (Forall_inv H) as (_ & _ & ->). discriminate.
  Qed.
  Lemma complete (m : nat -> D) a b c x y p q (is : list rtr_in) i j k : let s0 : rtr := rtr_init m a b c x y p q in
    let t := trace (rtr_step 1) s0 is in let t' := trace (rtr_step 1) s0 (is ++ [i; j; k]) in
    flush_at_once t -> idle i -> idle j -> idle k ->
    got_r t' = reads m t /\
    got_fa t' = map (fun x => (Some (fst (fst x)), Some (snd (fst x)))) (flushes m t) /\ got_fd t' = map (fun x => (snd x, true)) (flushes m t).
  Proof.
    intros s0 t t' Hg Hi Hj Hk.
    destruct (run_one is s0 [] (init_qinv _ _ _ _ _ _ _ _) Hg) as (Hm & out & q1 & A & B & C & E & F).
    assert (Hid : Forall idle [i; j; k]) by auto.
    destruct (run_one [i; j; k] _ q1 A (idle_guard _ _ Hid)) as (_ & out2 & q2 & A2 & B2 & C2 & E2 & F2). cbv zeta in *.
    set (t2 := trace (rtr_step 1) (final (rtr_step 1) s0 is) [i; j; k]) in *.
    assert (Et : t' = t ++ t2) by (unfold t', t, t2; now rewrite trace_app).
    assert (q2 = []) as ->.
    { pose proof (three_idle _ i j k q1 A Hi Hj Hk) as (_ & _ & Hd & _). destruct A2 as (_ & _ & Hd2 & _). rewrite Hd in Hd2. now destruct q2. }
    assert (Hnew : all_new (mem (final (rtr_step 1) s0 is)) t2 = []).
    { unfold t2. rewrite !trace_cons. cbn [rtr_step fst snd all_new]. rewrite !idle_new by assumption. reflexivity. }
    rewrite Hnew, !app_nil_r in B2. subst q1.
    assert (Hall : all_new m t = out ++ out2) by exact B.
    rewrite Et. unfold got_r, got_fa, got_fd in *. rewrite !flat_map_app. fold t in C, E, F. rewrite C, E, F, C2, E2, F2.
    rewrite <- as_r_all, <- as_f_all, Hall, as_r_app, as_f_app, !map_app. auto.
  Qed.

  (** ** the guard is met if the receivers are ready *)
  Definition lock (s : rtr) : Prop := one s /\ rdv s = m1v s /\ pend s = m0v s /\ ov s = false.
  Lemma lock_run : forall is s, lock s -> ready_env is -> flush_at_once (trace (rtr_step 1) s is).
  Proof.
    induction is as [|i is IH]; intros s Hl He; [constructor|]. rewrite trace_cons. destruct Hl as (Ho & H1 & H2 & H3).
    destruct (Forall_inv He) as [Hr Hd].
    assert (Hok : out_ok s i = true) by (unfold out_ok; destruct (rd_rdy i), (fa_rdy i), (fd_rdy i); try discriminate; reflexivity).
    assert (Hda : da_rdy s i = true) by (unfold da_rdy, dd_rdy; rewrite H1, H3, Hok; destruct (m1v s); reflexivity).
    assert (Hm1 : m1i_rdy s i = true) by (unfold m1i_rdy, m1o_rdy; rewrite H1, Hok; destruct (m1v s); reflexivity).
    assert (Hm0 : m0i_rdy s i = true) by (unfold m0i_rdy; now rewrite Hm1).
    constructor.
    - cbn [fst snd rtr_step wa_rdy rtr_out_of]. intros Hf. unfold wa_ok, w_addr_en. destruct Ho as (-> & -> & _). rewrite (Hd Hf), Hda, Hm0.
      destruct (wa_vld i), (wa_flush i); reflexivity.
    - apply IH; [|exact (Forall_inv_tail He)]. cbn [rtr_step fst].
      destruct (next_fields 1 s i) as (_ & _ & E2 & E3 & _ & E5 & _ & E7 & _ & E9 & _). unfold lock. rewrite E2, E3, E5, E7, E9, Hm0, Hm1.
      split; [now apply one_step|]. unfold read_regs', dd_rdy. rewrite Hok, issue_m0, Hm0, H1, H2, H3.
      destruct (m0v s), (m1v s); cbn; repeat split; now rewrite ?Bool.andb_true_r.
  Qed.
  Lemma ready_guard (m : nat -> D) a b c x y p q (is : list rtr_in) : ready_env is -> flush_at_once (trace (rtr_step 1) (rtr_init m a b c x y p q) is).
  Proof. apply lock_run. repeat split. Qed.
End One.

(** ** items of n words without flushes *)
Section Words.
  Context {D : Type}.
  Variable n : nat.
  Hypothesis Hn : 0 < n.
  Notation rtr := (rtr (D := D)).
  Notation rtr_in := (rtr_in (D := D)).
  Notation cyc := (rtr_in * rtr_out (D := D))%type.

  (** *** writes *)
  Lemma put_snoc addrs (m : nat -> D) ws f : forall j, put_words n addrs m j (ws ++ [f]) = put_word n addrs (put_words n addrs m j ws) (j + length ws) f.
  Proof.
    revert m. induction ws as [|g ws IH]; intros m j; cbn [put_words app length].
    - now rewrite Nat.add_0_r.
    - rewrite IH. now replace (S j + length ws) with (j + S (length ws)) by lia.
  Qed.
  Lemma put_more x addrs ws : forall (m : nat -> D) j, j + length ws <= n * length addrs -> put_words n (addrs ++ x) m j ws = put_words n addrs m j ws.
  Proof.
    induction ws as [|g ws IH]; intros m j H; [reflexivity|]. cbn [put_words length] in *.
    assert (E : put_word n (addrs ++ x) m j g = put_word n addrs m j g).
    { unfold put_word. rewrite nth_error_app1; [reflexivity|]. apply Nat.div_lt_upper_bound; lia. }
    rewrite E. apply IH. lia.
  Qed.
  (** accepted [addrs] and [ws] *)
  Definition winv_n (m : nat -> D) (addrs : list nat) (ws : list (D -> D)) (s : rtr) : Prop :=
    mem s = put_words n addrs m 0 ws /\ w_fl s && w_v s = false /\
    (if w_v s then exists pre, addrs = pre ++ [w_item s] /\ length ws = n * length pre + w_word s /\ 0 < w_word s < n
     else w_word s = 0 /\ length ws = n * length addrs).
  Lemma words_div q r : r < n -> (n * q + r) / n = q /\ (n * q + r) mod n = r.
  Proof. intros H. split; [symmetry; apply (Nat.div_unique _ _ _ r); lia|symmetry; apply (Nat.mod_unique _ _ q); lia]. Qed.
  Lemma winv_step m addrs ws s i : winv_n m addrs ws s -> wa_vld i && wa_flush i = false ->
    let c := (i, rtr_out_of s i) in
    winv_n m (addrs ++ (if write_acc c then [wa_addr i] else [])) (ws ++ (if wdata_acc c then [wd_put i] else [])) (rtr_next n s i).
  Proof.
    intros (Hm & Hf & Hv) Hnf c. destruct (next_fields n s i) as (Em & _ & _ & _ & _ & _ & _ & _ & _ & _ & _ & _ & Ew).
    unfold c, write_acc, wdata_acc. cbn [fst snd wa_rdy wd_rdy rtr_out_of].
    destruct (w_v s) eqn:Ev.
    - destruct Hv as (pre & Ha & Hl & Hw). rewrite Bool.andb_true_r in Hf.
      assert (wa_ok s i = false) as -> by (unfold wa_ok; rewrite Ev; apply Bool.andb_false_r). rewrite Bool.andb_false_r, app_nil_r.
      assert (wd_ok s i = true) as -> by (unfold wd_ok, w_data_en; rewrite Ev; now rewrite Bool.orb_true_r). rewrite Bool.andb_true_r.
      unfold dw_vld, w_index', w_ack, w_data_en, dw_addr in *. rewrite Ev in *. rewrite !Bool.orb_true_r in *. cbn [andb orb] in *. rewrite Bool.andb_true_r in *.
      destruct (wd_vld i).
      + destruct (words_div (length pre) (w_word s) ltac:(lia)) as [Q1 Q2].
        unfold winv_n. rewrite Em. split.
        { rewrite put_snoc, <- Hm. cbn [Nat.add]. rewrite Hl. unfold put_word. rewrite Q1, Q2, Ha, nth_error_app2, Nat.sub_diag by lia. cbn [nth_error].
          unfold multi. destruct (Nat.ltb_spec 1 n); [reflexivity|lia]. }
        destruct (Nat.eqb_spec (w_word s) 0); [lia|]. rewrite app_length. cbn [length].
        destruct (Nat.eqb_spec (w_word s) (n - 1)); injection Ew as E1 E2 E3 E4; rewrite E2, E3, E4.
        * split; [reflexivity|]. split; [reflexivity|]. rewrite Ha, app_length. cbn [length]. nia.
        * rewrite Hf. split; [reflexivity|]. exists pre. rewrite E1. repeat split; auto; lia.
      + injection Ew as E1 E2 E3 E4. rewrite app_nil_r. unfold winv_n. rewrite Em, E1, E2, E3, E4, ?Ev, ?Hf. repeat split; auto. exists pre. auto.
    - destruct Hv as (Hw & Hl).
      unfold wa_ok, wd_ok, w_addr_en, w_data_en, dw_vld, w_index', w_ack, w_addr_en, w_data_en, dw_addr in *. rewrite Ev in *. cbn [negb andb orb] in *. rewrite !Bool.andb_true_r, !Bool.orb_false_r in *.
      destruct (wa_vld i); cbn [andb orb negb] in *.
      + rewrite Hnf in *. cbn [negb orb andb] in *. rewrite !Bool.andb_true_r in *. destruct (wd_vld i); cbn [andb] in *.
        * rewrite Hw in Ew. cbn [Nat.eqb] in Ew. injection Ew as E1 E2 E3 E4. unfold winv_n. rewrite Em, E1, E2, E3, E4. split.
          { rewrite put_snoc, put_more by (cbn; lia). rewrite <- Hm. cbn [Nat.add]. unfold put_word. rewrite Hl.
            destruct (words_div (length addrs) 0 ltac:(lia)) as [Q1 Q2]. rewrite Nat.add_0_r in Q1, Q2. rewrite Q1, Q2, nth_error_app2, Nat.sub_diag by lia. cbn [nth_error].
            now rewrite Nat.add_0_r. }
          split; [reflexivity|]. unfold multi. rewrite app_length. cbn [length]. destruct (Nat.ltb_spec 1 n).
          -- exists addrs. repeat split; auto; lia.
          -- rewrite app_length. cbn [length]. split; [reflexivity|]. nia.
        * rewrite !app_nil_r. injection Ew as E1 E2 E3 E4. unfold winv_n. rewrite Em, E2, E3, E4, ?Ev, ?Bool.andb_false_r. auto.
      + rewrite !Bool.andb_false_r, !app_nil_r. injection Ew as E1 E2 E3 E4. unfold winv_n. rewrite Em, E2, E3, E4, ?Ev, ?Bool.andb_false_r. auto.
  Qed.
  Lemma winv_run m : forall is s addrs ws, winv_n m addrs ws s -> no_flush is ->
    let t := trace (rtr_step n) s is in
    winv_n m (addrs ++ write_addrs t) (ws ++ write_words t) (final (rtr_step n) s is).
  Proof.
    induction is as [|i is IH]; intros s addrs ws H Hf; cbv zeta.
    - cbn. now rewrite !app_nil_r.
    - rewrite trace_cons, final_cons. cbn [rtr_step fst snd]. unfold write_addrs, write_words. cbn [flat_map fst]. rewrite !app_assoc.
      apply IH; [|exact (Forall_inv_tail Hf)]. apply (winv_step m addrs ws s i H). exact (Forall_inv Hf).
  Qed.
  Lemma writes_n (m : nat -> D) a b c x y p q is : let s0 : rtr := rtr_init m a b c x y p q in
    no_flush is -> let t := trace (rtr_step n) s0 is in
    mem (final (rtr_step n) s0 is) = put_words n (write_addrs t) m 0 (write_words t) /\
    length (write_words t) <= n * length (write_addrs t) < length (write_words t) + n.
  Proof.
    intros s0 Hf t. assert (H0 : winv_n m [] [] s0) by (repeat split; cbn; lia).
    destruct (winv_run m is s0 [] [] H0 Hf) as (A & _ & B). fold t in A, B. cbn [app] in *. split; [exact A|].
    destruct (w_v _).
    - destruct B as (pre & -> & B & C). rewrite app_length. cbn [length]. nia.
    - lia.
  Qed.

  (** *** reads *)
  Definition wmeta (e : nat * nat * nat) (m : meta) : Prop :=
    let '(id, a, j) := e in m_rpriv m = Some id /\ m_fl m = false /\ m_last m = (S j =? n).
  Definition wdata (m : nat -> D) (e : nat * nat * nat) : D := let '(id, a, j) := e in m (a * n + j).
  Definition wout (m : nat -> D) (e : nat * nat * nat) : option nat * D * bool := let '(id, a, j) := e in (Some id, m (a * n + j), S j =? n).
  Definition item_ents (r : nat * nat) : list (nat * nat * nat) := map (fun j => (fst r, snd r, j)) (seq 0 n).
  (** [rs] = accepted reads, [q] = words under way, [done] = handed over *)
  Definition rinv_n (m : nat -> D) (rs : list (nat * nat)) (done q : list (nat * nat * nat)) (s : rtr) : Prop :=
    winv s /\ mem s = m /\ w_v s = false /\ w_word s = 0 /\ dc s = map (wdata m) q /\ Forall2 wmeta q (mc s) /\
    (if r_v s then exists pre id, rs = pre ++ [(id, r_item s)] /\ 0 < r_word s < n /\ rpriv_copy s = Some id /\
                     done ++ q = flat_map item_ents pre ++ map (fun j => (id, r_item s, j)) (seq 0 (r_word s))
     else r_word s = 0 /\ done ++ q = flat_map item_ents rs).

  Lemma copy_next (s : rtr) (i : rtr_in) : rpriv_copy (rtr_next n s i) = if issue s i then m_rpriv (meta_in n s i) else rpriv_copy s.
  Proof.
    destruct (next_fields n s i) as (_ & _ & _ & _ & _ & _ & _ & E7 & E8 & E9 & E10 & _ & _).
    unfold rpriv_copy. rewrite E7, E8, E10. rewrite issue_m0. unfold m0i_rdy. destruct (m1i_rdy s i), (m0v s), (m0i_vld s i); reflexivity.
  Qed.
  Lemma rinv_step m rs done q s i : rinv_n m rs done q s -> wa_vld i = false ->
    let c := (i, rtr_out_of s i) in
    exists new, rinv_n m (rs ++ (if read_acc c then [(ra_id i, ra_addr i)] else [])) (done ++ (if pop s i then firstn 1 q else []))
      ((if pop s i then tl q else q) ++ new) (rtr_next n s i) /\
      (if rd_rdy i then match r_data (rtr_out_of s i) with Some x => [x] | None => [] end else []) = map (wout m) (if pop s i then firstn 1 q else []).
  Proof.
    intros (Hw & Hmem & Hwv & Hww & Hd & Hm & Hv) Hnw c.
    destruct (queue_step n s i Hw) as (Hw' & Hd' & Hm').
    destruct (next_fields n s i) as (Em & _ & _ & _ & _ & _ & _ & _ & _ & _ & _ & Er & Ew).
    assert (Hfr : flush_req s i = false) by (unfold flush_req; now rewrite Hnw).
    assert (Hdw : dw_vld s i = false) by (unfold dw_vld; now rewrite Hnw, Hwv).
    assert (Hwa : w_ack s i = false) by (unfold w_ack; now rewrite Hnw, Hwv).
    rewrite Hdw in Em. unfold w_index' in Ew. rewrite Hwa in Ew. injection Ew as _ Ew2 Ew3 _.
    assert (Hra : read_acc c = negb (r_v s) && issue s i).
    { unfold read_acc, c, ra_ok, issue, da_vld, skip_ra, r_en. cbn [fst snd ra_rdy rtr_out_of]. unfold ra_ok, skip_ra. rewrite Hfr.
      destruct (r_v s), (ra_vld i), (da_rdy s i), (m0i_rdy s i); reflexivity. }
    assert (Hack : r_ack s i = issue s i).
    { unfold r_ack, issue, da_vld, skip_ra, r_en. rewrite Hfr. destruct (r_v s), (ra_vld i), (da_rdy s i), (m0i_rdy s i); reflexivity. }
    assert (Hout : (if rd_rdy i then match r_data (rtr_out_of s i) with Some x => [x] | None => [] end else []) = map (wout m) (if pop s i then firstn 1 q else [])).
    { destruct (out_pop s i) as (-> & _). destruct (pop s i) eqn:Ep; [|reflexivity]. unfold pop in Ep. unfold dc in Hd. unfold mc in Hm.
      destruct (rdv s); [|discriminate]. destruct (m1v s); [|discriminate]. destruct q as [|[[id a] j] q]; [discriminate|].
      cbn [map app] in *. injection Hd as Hd _. inversion Hm as [|? ? ? ? Hx Hrest]; subst. unfold wmeta in Hx. destruct Hx as (H1 & H2 & H3). rewrite H1, H2, H3, Hd. reflexivity. }
    set (q1 := if pop s i then tl q else q) in *.
    assert (Hq1d : (if pop s i then tl (dc s) else dc s) = map (wdata m) q1) by (unfold q1; rewrite Hd; destruct (pop s i); [now destruct q|reflexivity]).
    assert (Hq1m : Forall2 wmeta q1 (if pop s i then tl (mc s) else mc s)).
    { unfold q1. destruct (pop s i); [|exact Hm]. inversion Hm; cbn; [constructor|assumption]. }
    assert (Hq1 : (done ++ (if pop s i then firstn 1 q else [])) ++ q1 = done ++ q).
    { unfold q1. rewrite <- app_assoc. f_equal. destruct (pop s i); [now destruct q|reflexivity]. }
    assert (Hcopy := copy_next s i).
    assert (Hmi : meta_in n s i = if r_v s then mk_m (rpriv_copy s) (wpriv_copy s) None false (if n - 1 =? 0 then true else r_word s =? n - 1) (if n - 1 =? 0 then true else false)
                  else mk_m (Some (ra_id i)) None (Some (ra_addr i)) false (if n - 1 =? 0 then true else false) (if n - 1 =? 0 then true else true)).
    { unfold meta_in, flush_pending. rewrite Hwv, Hfr. reflexivity. }
    unfold r_index' in Er. rewrite Hack, Hfr in Er. rewrite Hra.
    destruct (issue s i) eqn:Ei.
    - destruct (r_v s) eqn:Erv; cbn [negb andb].
      + destruct Hv as (pre & id & Hrs & Hrw & Hcp & Hl).
        exists [(id, r_item s, r_word s)]. split; [|exact Hout].
        destruct (Nat.eqb_spec (r_word s) 0); [lia|].
        split; [exact Hw'|]. split; [congruence|]. split; [congruence|]. split; [congruence|].
        split. { rewrite Hd', Hq1d, map_app. f_equal. cbn. unfold da_addr. rewrite Erv, Hmem. unfold multi. destruct (Nat.ltb_spec 1 n); [reflexivity|lia]. }
        split. { rewrite Hm'. apply Forall2_app; [exact Hq1m|]. constructor; [|constructor]. rewrite Hmi. unfold wmeta. cbn [m_rpriv m_fl m_last]. repeat split; [exact Hcp|].
                 destruct (Nat.eqb_spec (n - 1) 0); [lia|]. destruct (Nat.eqb_spec (r_word s) (n - 1)), (Nat.eqb_spec (S (r_word s)) n); try lia; reflexivity. }
        rewrite app_nil_r. rewrite (app_assoc _ q1), Hq1, Hl.
        assert (Hseq : map (fun j => (id, r_item s, j)) (seq 0 (r_word s)) ++ [(id, r_item s, r_word s)] = map (fun j => (id, r_item s, j)) (seq 0 (S (r_word s)))).
        { rewrite seq_S, map_app. reflexivity. }
        destruct (Nat.eqb_spec (r_word s) (n - 1)) as [El|El]; injection Er as E1 E2 E3; rewrite E2, E3.
        * split; [reflexivity|]. rewrite Hrs, flat_map_app. cbn [flat_map]. rewrite app_nil_r. rewrite <- app_assoc, Hseq. f_equal.
          unfold item_ents. cbn [fst snd]. now replace (S (r_word s)) with n by lia.
        * exists pre, id. rewrite E1. repeat split; auto; try lia.
          -- rewrite Hcopy, Hmi. exact Hcp.
          -- rewrite <- app_assoc, Hseq. now replace (r_word s + 1) with (S (r_word s)) by lia.
      + destruct Hv as (Hrw & Hl). rewrite Hrw in Er. cbn [Nat.eqb] in Er.
        assert (Hav : ra_vld i = true) by (unfold issue, da_vld, skip_ra, r_en in Ei; rewrite Hfr, Erv in Ei; destruct (ra_vld i); [reflexivity|discriminate]).
        rewrite Hav in Er. cbn [andb] in Er.
        exists [(ra_id i, ra_addr i, 0)]. split; [|exact Hout]. injection Er as E1 E2 E3.
        split; [exact Hw'|]. split; [congruence|]. split; [congruence|]. split; [congruence|].
        split. { rewrite Hd', Hq1d, map_app. f_equal. cbn. unfold da_addr. rewrite Erv, Hfr, Hmem. now rewrite Nat.add_0_r. }
        split. { rewrite Hm'. apply Forall2_app; [exact Hq1m|]. constructor; [|constructor]. rewrite Hmi. unfold wmeta. cbn [m_rpriv m_fl m_last]. repeat split.
                 destruct (Nat.eqb_spec (n - 1) 0), (Nat.eqb_spec 1 n); try lia; reflexivity. }
        rewrite (app_assoc _ q1), Hq1, Hl, E2, E3. unfold multi. destruct (Nat.ltb_spec 1 n).
        * exists rs, (ra_id i). rewrite E1. repeat split; auto. rewrite Hcopy, Hmi. reflexivity.
        * split; [reflexivity|]. rewrite flat_map_app. cbn [flat_map]. rewrite app_nil_r. f_equal. unfold item_ents. assert (n = 1) as -> by lia. reflexivity.
    - exists []. split; [|exact Hout]. rewrite Bool.andb_false_r, !app_nil_r. injection Er as E1 E2 E3.
      rewrite app_nil_r in Hd', Hm'.
      split; [exact Hw'|]. split; [congruence|]. split; [congruence|]. split; [congruence|].
      split; [now rewrite Hd'|]. split; [now rewrite Hm'|]. rewrite E1, E2, E3, Hcopy, Hq1. exact Hv.
  Qed.
  Lemma rinv_run m : forall is s rs done q, rinv_n m rs done q s -> no_write is ->
    let t := trace (rtr_step n) s is in
    exists done' q', rinv_n m (rs ++ read_addrs t) (done ++ done') q' (final (rtr_step n) s is) /\ got_r t = map (wout m) done'.
  Proof.
    induction is as [|i is IH]; intros s rs done q H Hf; cbv zeta.
    - exists [], q. cbn. rewrite !app_nil_r. auto.
    - rewrite trace_cons, final_cons. cbn [rtr_step fst snd].
      destruct (rinv_step m rs done q s i H (Forall_inv Hf)) as (new & A & B). cbv zeta in A.
      destruct (IH _ _ _ _ A (Forall_inv_tail Hf)) as (done' & q' & C & E). cbv zeta in *.
      exists ((if pop s i then firstn 1 q else []) ++ done'), q'. unfold read_addrs, got_r in *. cbn [flat_map fst snd]. rewrite !app_assoc. split; [exact C|].
      rewrite map_app, E, B. reflexivity.
  Qed.
  Lemma reads_n (m : nat -> D) a b c x y p q is : let s0 : rtr := rtr_init m a b c x y p q in
    no_write is -> let t := trace (rtr_step n) s0 is in
    exists later, got_r t ++ later = flat_map (item_words n m) (read_addrs t) /\ length later < n + 2.
  Proof.
    intros s0 Hf t. assert (H0 : rinv_n m [] [] [] s0) by (repeat split; cbn; try discriminate; constructor).
    destruct (rinv_run m is s0 [] [] [] H0 Hf) as (done & q' & A & B). fold t in A, B. cbn [app] in *.
    destruct A as (_ & _ & _ & _ & Hd & Hm & Hv).
    assert (Hq : length q' <= 2) by (apply Forall2_len in Hm; rewrite Hm; unfold mc; destruct (m1v _), (m0v _); cbn; lia).
    assert (Hw : forall rs, flat_map (item_words n m) rs = map (wout m) (flat_map item_ents rs)).
    { induction rs as [|r rs IH]; [reflexivity|]. cbn [flat_map]. rewrite map_app, IH. f_equal. unfold item_words, item_ents. rewrite map_map. reflexivity. }
    rewrite Hw, B. destruct (r_v _).
    - destruct Hv as (pre & id & -> & Hr & _ & Hl). set (w := r_word _) in *. set (it := r_item _) in *.
      exists (map (wout m) (q' ++ map (fun j => (id, it, j)) (seq w (n - w)))). rewrite map_length, app_length, map_length, seq_length. split; [|lia].
      rewrite <- map_app. f_equal. rewrite app_assoc, Hl, flat_map_app. cbn [flat_map]. rewrite app_nil_r, <- app_assoc. f_equal.
      unfold item_ents. cbn [fst snd]. rewrite <- map_app. f_equal. replace n with (w + (n - w)) at 2 by lia. rewrite seq_app. reflexivity.
    - destruct Hv as (_ & Hl). exists (map (wout m) q'). rewrite map_length. split; [|lia]. now rewrite <- map_app, Hl.
  Qed.
End Words.
