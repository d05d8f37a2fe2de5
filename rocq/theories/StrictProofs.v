From Verif Require Import Base BaseFacts FifoModel FifoProofs HsFifoProofs JoinSplitModel JoinSplitSpec JoinSplitProofs OneHotModel OneHotProofs StrictModel StrictSpec ToLiteProofs.

(** lists *)
Lemma flat_none {B} (f : nat -> list B) m a : (forall k, a <= k < a + m -> f k = []) -> flat_map f (seq a m) = [].
Proof.
  revert a. induction m as [|m IH]; intros a H; [reflexivity|]. cbn [seq flat_map].
  rewrite (H a), (IH (S a)); [reflexivity|intros; apply H; lia|lia].
Qed.
Lemma flat_one {B} (f : nat -> list B) m k : k < m -> (forall j, j < m -> j <> k -> f j = []) -> flat_map f (seq 0 m) = f k.
Proof.
  intros Hk H. replace m with (k + (1 + (m - k - 1))) by lia. rewrite seq_app, flat_map_app.
  rewrite (flat_none f k 0) by (intros; apply H; lia). cbn [plus seq flat_map].
  rewrite (flat_none f (m - k - 1) (S k)) by (intros; apply H; lia). rewrite app_nil_r. reflexivity.
Qed.
Lemma ends_app {W} (a b : list (W * bool)) : ends (a ++ b) = ends a + ends b.
Proof. unfold ends. rewrite filter_app, app_length. reflexivity. Qed.
Lemma ends_one {W} (w : W) l : ends [(w, l)] = if l then 1 else 0.
Proof. destruct l; reflexivity. Qed.
Lemma ends_nil {W} : ends (@nil (W * bool)) = 0.
Proof. reflexivity. Qed.
Lemma assigned_more {W} (ow more : list nat) (ws : list (W * bool)) l :
  assigned ow ws = Some l -> assigned (ow ++ more) ws = Some l.
Proof.
  revert ow l. induction ws as [|w ws IH]; intros ow l H; [exact H|]. cbn [assigned] in *.
  destruct ow as [|k ks]; [discriminate|]. cbn [app].
  destruct (assigned (if snd w then ks else k :: ks) ws) as [l'|] eqn:E; [|discriminate].
  replace (if snd w then ks ++ more else k :: ks ++ more) with ((if snd w then ks else k :: ks) ++ more) by (destruct (snd w); reflexivity).
  rewrite (IH _ _ E). exact H.
Qed.
Lemma assigned_snoc {W} (ow : list nat) (ws : list (W * bool)) l k r w :
  assigned ow ws = Some l -> skipn (ends ws) ow = k :: r -> assigned ow (ws ++ [w]) = Some (l ++ [(k, w)]).
Proof.
  revert ow l. induction ws as [|v ws IH]; intros ow l H Hs.
  - cbn in H, Hs. injection H as <-. subst ow. reflexivity.
  - cbn [assigned app] in *. destruct ow as [|a ow]; [discriminate|].
    destruct (assigned (if snd v then ow else a :: ow) ws) as [l'|] eqn:E; [|discriminate]. injection H as <-.
    erewrite IH; [reflexivity|exact E|].
    unfold ends in Hs |- *. cbn [filter] in Hs. destruct (snd v); cbn [length skipn] in Hs; exact Hs.
Qed.
Lemma assigned_ends {W} (ow : list nat) (ws : list (W * bool)) l : assigned ow ws = Some l -> ends ws <= length ow.
Proof.
  revert ow l. induction ws as [|v ws IH]; intros ow l H; [cbn; lia|]. cbn [assigned] in H.
  destruct ow as [|a ow]; [discriminate|]. destruct (assigned (if snd v then ow else a :: ow) ws) as [l'|] eqn:E; [|discriminate].
  apply IH in E. unfold ends in *. cbn [filter]. destruct (snd v); cbn [length] in *; lia.
Qed.
Lemma skipn_snoc_cons {B} m (l : list B) k r : skipn m l = k :: r -> skipn (m + 1) l = r.
Proof.
  revert l. induction m as [|m IH]; intros l H; [cbn in H; subst l; reflexivity|].
  destruct l as [|a l]; [discriminate|]. cbn [skipn plus] in *. apply IH, H.
Qed.
Lemma firstn_snoc_skip {B} m (l : list B) k r : skipn m l = k :: r -> firstn (m + 1) l = firstn m l ++ [k].
Proof.
  revert l. induction m as [|m IH]; intros l H; [cbn in H; subst l; reflexivity|].
  destruct l as [|a l]; [discriminate|]. cbn [skipn firstn plus app] in *. f_equal. apply IH, H.
Qed.

Section Req.
  Context {Q : Type}.
  Variables (n : nat) (x : Q).
  Hypothesis Hn : 0 < n.

  Definition taken (reqs : list (bool * Q)) (rds : list bool) : list (nat * Q) :=
    flat_map (fun k => match nth_error reqs k with
                       | Some (true, q) => if nth k rds false then [(k, q)] else []
                       | _ => [] end) (seq 0 n).

  (** one cycle of the request handler *)
  Lemma req_cycle p reqs dp_rd frd j dpv fv fd :
    p < n -> length reqs = n ->
    req_handler x (onehot n p) reqs dp_rd frd = (j, dpv, fv, fd) ->
    fst j = onehot n ((p + 1) mod n) /\
    ((dpv && dp_rd = false /\ fv && frd = false /\ taken reqs (j_rds (snd j)) = [] /\
      ((exists k q, nth_error reqs k = Some (true, q)) -> dp_rd && frd = false)) \/
     (dpv && dp_rd = true /\ fv && frd = true /\ fd < n /\ taken reqs (j_rds (snd j)) = [(fd, j_data (snd j))])).
  Proof.
    intros Hp Hl H. unfold req_handler in H.
    set (i := mk_jin reqs (dp_rd && frd)) in *. cbv zeta in H. apply pair_equal_spec in H; destruct H as [H <-].
    apply pair_equal_spec in H; destruct H as [H <-]. apply pair_equal_spec in H; destruct H as [<- <-].
    assert (nin i = n) as Hi by exact Hl.
    split; [apply (rol1_onehot n p Hp)|].
    assert (forall k q, nth_error reqs k = Some (true, q) -> j_vld (snd (join_fair x (onehot n p) i)) = true) as Hv.
    { intros k q E. cbn [snd j_vld join_fair]. apply any_true. exists k. apply (nth_vlds i). exists q. exact E. }
    pose proof (fun k => jf_moves x n p i Hp Hi k) as Hm.
    assert (forall k q, nth_error reqs k = Some (true, q) -> nth k (j_rds (snd (join_fair x (onehot n p) i))) false = true ->
              wins p (vlds i) k /\ dp_rd && frd = true) as Hw.
    { intros k q E1 E2. apply (Hm k). exists q. split; [exact E1|]. apply nth_error_nth_b. exact E2. }
    destruct (j_vld (snd (join_fair x (onehot n p) i)) && (dp_rd && frd)) eqn:E.
    - right. apply andb_prop in E. destruct E as [E1 E2]. pose proof (proj1 (jf_out x n p i) E1) as [k Hk].
      destruct (proj2 (Hm k) (conj Hk E2)) as [q [F1 F2]].
      pose proof (wins_lt _ _ _ Hk) as Hkn. rewrite len_vlds, Hi in Hkn.
      rewrite (jf_sel x n p i Hp Hi k Hk), (jf_data x n p i Hp Hi k q Hk F1).
      apply andb_prop in E2. destruct E2 as [-> ->].
      assert (onehot n k <> []) as Hne.
      { intros F. apply (f_equal (@length bool)) in F. rewrite len_onehot in F. cbn in F. lia. }
      rewrite (onehot_to_bin_eq _ Hne).
      assert (first_set (onehot n k) = k) as Hfs.
      { apply first_set_spec.
        - apply nth_error_nth_b. rewrite nth_onehot by exact Hkn. apply Nat.eqb_refl.
        - intros m Hm'. rewrite (nth_error_nth' _ false) by (rewrite len_onehot; lia). rewrite nth_onehot by lia.
          destruct (Nat.eqb_spec m k); [lia|reflexivity]. }
      rewrite Hfs, E1. repeat split; [exact Hkn|].
      unfold taken. rewrite (flat_one _ n k Hkn).
      + cbn [j_in i] in F1. rewrite F1. apply nth_error_nth_b in F2. rewrite F2. reflexivity.
      + intros m Hmn Hne'. destruct (nth_error reqs m) as [[[|] q']|] eqn:F; try reflexivity.
        destruct (nth m _ false) eqn:G; [|reflexivity]. exfalso. apply Hne'.
        destruct (Hw m q' F G) as [Hw' _]. exact (wins_unique p (vlds i) m k Hw' Hk).
    - left. repeat split.
      + destruct (j_vld _), dp_rd, frd; cbn in *; congruence.
      + destruct (j_vld _), dp_rd, frd; cbn in *; congruence.
      + unfold taken. apply flat_none. intros k Hk. destruct (nth_error reqs k) as [[[|] q]|] eqn:F; try reflexivity.
        destruct (nth k _ false) eqn:G; [|reflexivity]. exfalso. destruct (Hw k q F G) as [_ G'].
        rewrite (Hv k q F), G' in E. discriminate.
      + intros [k [q F]]. rewrite (Hv k q F) in E. exact E.
  Qed.
End Req.

Lemma sel_one n od (f : nat -> bool) : od < n -> existsb (fun k => (od =? k) && f k) (seq 0 n) = f od.
Proof.
  intros H. apply eq_iff_eq_true. rewrite existsb_exists. split.
  - intros [k [_ E]]. apply andb_prop in E. destruct E as [E F]. apply Nat.eqb_eq in E. subst k. exact F.
  - intros F. exists od. split; [apply in_seq; lia|]. rewrite Nat.eqb_refl. exact F.
Qed.

Section R.
  Context {Q W : Type}.
  Variables (n DEPTH : nat) (x : Q).
  Hypotheses (Hn : 0 < n) (HD : 2 <= DEPTH).
  Notation step := (@rs_step Q W n DEPTH x).
  Notation rcyc := (rs_in Q W * rs_out Q)%type.

  Record RInv (s : rs_st) (t : list rcyc) : Prop := {
    ri_p : exists p, p < n /\ rs_prio s = onehot n p;
    ri_q : HRep DEPTH (rs_f s) (skipn (ends (flat_map rd_from t)) (map fst (flat_map (rq_from n) t)));
    ri_lt : Forall (fun k => k < n) (map fst (flat_map (rq_from n) t));
    ri_as : assigned (map fst (flat_map (rq_from n) t)) (flat_map rd_from t) = Some (flat_map (rd_to n) t);
    ri_req' : map snd (flat_map (rq_from n) t) = flat_map rq_to t }.

  Lemma skipn_lt ow m : Forall (fun k => k < n) ow -> Forall (fun k => k < n) (skipn m ow).
  Proof. intros H. rewrite <- (firstn_skipn m ow) in H. apply Forall_app in H. apply H. Qed.

  Lemma rinv_step s t (i : rs_in Q W) : r_env n i -> RInv s t ->
    RInv (fst (step s i)) (t ++ [(i, snd (step s i))]) /\
    (ovld (rs_f s) = true -> ri_v i = true -> (forall k, ri_rdy i k = true) -> rd_from (i, snd (step s i)) <> []) /\
    (ovld (rs_f s) = false -> 0 < r_open n t -> ovld (rs_f (fst (step s i))) = true) /\
    (ri_dprd i = true -> (exists k q, nth_error (ri_req i) k = Some (true, q)) -> r_open n t < DEPTH - 1 ->
       rq_to (i, snd (step s i)) <> []).
  Proof.
    intros He [[p [Hp Ep]] Hq Hlt Has Hreq].
    set (ow := map fst (flat_map (rq_from n) t)) in *. set (ws := flat_map rd_from t) in *.
    destruct (req_handler x (rs_prio s) (ri_req i) (ri_dprd i) (negb (f_wwait (hf (rs_f s))))) as [[[j dpv] fv] fd] eqn:Er.
    pose proof Er as Er'. rewrite Ep in Er'.
    destruct (req_cycle n x Hn p (ri_req i) (ri_dprd i) _ j dpv fv fd Hp He Er') as [Ej Hc]. clear Er'.
    set (od := dreg (hf (rs_f s))) in *. set (sel_rdy := existsb (fun k => (od =? k) && ri_rdy i k) (seq 0 n)) in *.
    set (fi := mk_hin fv fd (ri_v i && ri_last i && sel_rdy)).
    assert (step s i = (mk_rs (fst j) (fst (hsf_step DEPTH (rs_f s) fi)),
      mk_rso (j_rds (snd j)) dpv (j_data (snd j)) (ovld (rs_f s) && sel_rdy)
            (fun k => (k <? n) && (ri_v i && ovld (rs_f s) && (od =? k))))) as Es.
    { unfold rs_step. rewrite Er. reflexivity. }
    rewrite Es. cbn [fst snd]. set (o := mk_rso _ _ _ _ _).
    pose proof (hrep_step DEPTH HD (rs_f s) _ fi Hq) as H. cbv zeta in H.
    rewrite step_out in H. cbn [h_rd h_vld h_data i_vld i_data i_rd fi] in H. fold od in H.
    destruct H as [Hr [Hh [_ [Hfree [_ [_ [Hw0 _]]]]]]].
    assert (r_open n t = length (skipn (ends ws) ow)) as Hopen.
    { unfold r_open. rewrite skipn_length. unfold ow. rewrite map_length. reflexivity. }
    (* requests of the cycle *)
    set (rq := rq_from n (i, o)).
    assert (rq = taken n (ri_req i) (j_rds (snd j))) as Erq by reflexivity.
    assert (map fst rq = (if fv && negb (f_wwait (hf (rs_f s))) then [fd] else []) /\ Forall (fun k => k < n) (map fst rq) /\
            map snd rq = rq_to (i, o)) as [F1 [F2 F3]].
    { rewrite Erq. unfold rq_to. cbn [fst snd o ro_vld ro_req].
      destruct Hc as [[C1 [C2 [C3 _]]]|[C1 [C2 [C3 C4]]]].
      - rewrite C1, C2, C3. repeat split; constructor.
      - rewrite C1, C2, C4. repeat split. repeat constructor. exact C3. }
    (* data of the cycle *)
    assert (rd_from (i, o) = [] /\ rd_to n (i, o) = [] /\ (ovld (rs_f s) && (ri_v i && ri_last i && sel_rdy) = false) /\
            (ovld (rs_f s) = true -> ri_v i = true -> (forall k, ri_rdy i k = true) -> False) \/
            exists r, skipn (ends ws) ow = od :: r /\ rd_from (i, o) = [(ri_w i, ri_last i)] /\ rd_to n (i, o) = [(od, (ri_w i, ri_last i))] /\
              ovld (rs_f s) && (ri_v i && ri_last i && sel_rdy) = ri_last i) as Hd.
    { unfold rd_from, rd_to. cbn [fst snd o ro_rdy ro_v].
      destruct (ovld (rs_f s)) eqn:Ev.
      - destruct (Hh eq_refl) as [r Eq].
        assert (od < n) as Hod by (pose proof (skipn_lt ow (ends ws) Hlt) as G; rewrite Eq in G; inversion G; assumption).
        assert (sel_rdy = ri_rdy i od) as Esr by (exact (sel_one n od (ri_rdy i) Hod)). rewrite Esr. cbn [andb].
        rewrite andb_true_r. rewrite (flat_one _ n od Hod).
        + rewrite Nat.eqb_refl. replace (od <? n) with true by (symmetry; apply Nat.ltb_lt; exact Hod). rewrite andb_true_r. cbn [andb].
          destruct (ri_v i && ri_rdy i od) eqn:E.
          * right. exists r. apply andb_prop in E. destruct E as [-> ->]. cbn [andb]. repeat split; [exact Eq|apply andb_true_r].
          * left. repeat split; [destruct (ri_v i), (ri_rdy i od), (ri_last i); cbn in *; congruence|].
            intros _ G1 G2. rewrite G1, G2 in E. discriminate.
        + intros m _ Hm. destruct (Nat.eqb_spec od m) as [->|_]; [congruence|]. rewrite !andb_false_r. reflexivity.
      - left. cbn [andb]. repeat split.
        + rewrite andb_false_r. reflexivity.
        + apply flat_none. intros k _. rewrite andb_false_r. cbn [andb]. rewrite andb_false_r. reflexivity.
        + discriminate. }
    split; [|split; [|split]].
    - constructor; rewrite ?flat_map_app; cbn [flat_map]; rewrite ?app_nil_r; fold rq ws; cbn [rs_prio rs_f].
      + exists ((p + 1) mod n). split; [apply Nat.mod_upper_bound; lia|exact Ej].
      + rewrite map_app. fold ow. rewrite ends_app, F1.
        replace (skipn _ _) with ((if ovld (rs_f s) && (ri_v i && ri_last i && sel_rdy) then tl (skipn (ends ws) ow) else skipn (ends ws) ow) ++
          (if fv && negb (f_wwait (hf (rs_f s))) then [fd] else [])); [exact Hr|].
        pose proof (assigned_ends _ _ _ Has) as He'.
        destruct Hd as [[D1 [D2 [D3 _]]]|[r [D1 [D2 [D3 D4]]]]].
        * rewrite D1, D3, ends_nil, Nat.add_0_r, skipn_app.
          replace (ends ws - length ow) with 0 by lia. reflexivity.
        * rewrite D2, D4. assert (ends ws < length ow).
          { assert (length (skipn (ends ws) ow) = S (length r)) as G by (rewrite D1; reflexivity). rewrite skipn_length in G. lia. }
          rewrite ends_one. destruct (ri_last i).
          -- rewrite skipn_app, (skipn_snoc_cons _ _ _ _ D1), D1. replace (ends ws + 1 - length ow) with 0 by lia. reflexivity.
          -- rewrite Nat.add_0_r, skipn_app. replace (ends ws - length ow) with 0 by lia. reflexivity.
      + rewrite map_app. apply Forall_app. split; [exact Hlt|exact F2].
      + rewrite map_app. fold ow.
        destruct Hd as [[D1 [D2 _]]|[r [D1 [D2 [D3 D4]]]]].
        * rewrite D1, D2, !app_nil_r. apply assigned_more. exact Has.
        * rewrite D2, D3. apply assigned_more. apply (assigned_snoc _ _ _ _ r); [exact Has|exact D1].
      + rewrite map_app, Hreq, F3. reflexivity.
    - intros G1 G2 G3. destruct Hd as [[_ [_ [_ D]]]|[r [_ [D _]]]]; [destruct (D G1 G2 G3)|rewrite D; discriminate].
    - intros G1 G2. cbn [rs_f]. apply Hw0; [exact G1|]. intros E. rewrite Hopen, E in G2. cbn in G2. lia.
    - intros G1 G2 G3. rewrite Hopen in G3. specialize (Hfree G3).
      destruct Hc as [[_ [_ [_ C]]]|[C _]].
      + rewrite G1, Hfree in C. specialize (C G2). discriminate.
      + unfold rq_to. cbn [fst snd o ro_vld]. rewrite C. discriminate.
  Qed.

  Lemma rinv_run m0 d0 (is : list (rs_in Q W)) : Forall (r_env n) is ->
    RInv (final step (rs_init n DEPTH m0 d0) is) (trace step (rs_init n DEPTH m0 d0) is).
  Proof.
    induction is as [|i is IH] using rev_ind; intros H.
    - constructor.
      + exists 0. split; [exact Hn|reflexivity].
      + cbn. apply (hrep_init DEPTH HD [] m0 d0). left. cbn. lia.
      + constructor.
      + reflexivity.
      + reflexivity.
    - apply Forall_app in H. destruct H as [H1 H2]. inversion H2; subst.
      rewrite final_snoc, trace_snoc. apply (rinv_step _ _ i); [assumption|apply IH; exact H1].
  Qed.

  Lemma r_run m0 d0 (is : list (rs_in Q W)) : Forall (r_env n) is -> r_law n DEPTH (trace step (rs_init n DEPTH m0 d0) is).
  Proof.
    intros H. destruct (rinv_run m0 d0 is H) as [_ Hq _ Has Hreq]. repeat split; [exact Hreq|exact Has|].
    pose proof (hrep_len DEPTH HD _ _ Hq) as L. rewrite skipn_length, map_length in L. lia.
  Qed.

  (** progress *)
  Lemma r_move m0 d0 (is : list (rs_in Q W)) (i i' : rs_in Q W) : Forall (r_env n) (is ++ [i; i']) ->
    0 < r_open n (trace step (rs_init n DEPTH m0 d0) is) ->
    (ri_v i = true /\ forall k, ri_rdy i k = true) -> (ri_v i' = true /\ forall k, ri_rdy i' k = true) ->
    let s := final step (rs_init n DEPTH m0 d0) is in
    flat_map rd_from (trace step s [i; i']) <> [].
  Proof.
    intros H Ho [V1 R1] [V2 R2] s. apply Forall_app in H. destruct H as [H1 H2]. inversion_clear H2 as [|? ? He He']. inversion_clear He' as [|? ? He2 _].
    destruct (rinv_step s _ i He (rinv_run m0 d0 is H1)) as [HI [M1 [M2 _]]].
    destruct (rinv_step _ _ i' He2 HI) as [_ [M3 _]].
    rewrite !trace_cons. cbn [flat_map trace outs run snd combine]. 
    destruct (ovld (rs_f s)) eqn:E.
    - intros F. apply app_eq_nil in F. destruct F as [F _]. exact (M1 eq_refl V1 R1 F).
    - intros F. apply app_eq_nil in F. destruct F as [_ F]. apply app_eq_nil in F. destruct F as [F _].
      exact (M3 (M2 eq_refl Ho) V2 R2 F).
  Qed.
  Lemma r_req_move m0 d0 (is : list (rs_in Q W)) (i : rs_in Q W) : Forall (r_env n) (is ++ [i]) ->
    ri_dprd i = true -> (exists k q, nth_error (ri_req i) k = Some (true, q)) ->
    r_open n (trace step (rs_init n DEPTH m0 d0) is) < DEPTH - 1 ->
    rq_to (i, snd (step (final step (rs_init n DEPTH m0 d0) is) i)) <> [].
  Proof.
    intros H G1 G2 G3. apply Forall_app in H. destruct H as [H1 H2]. inversion_clear H2 as [|? ? He _].
    exact (proj2 (proj2 (proj2 (rinv_step _ _ i He (rinv_run m0 d0 is H1)))) G1 G2 G3).
  Qed.
End R.

Section Wr.
  Context {Q W : Type}.
  Variables (n DEPTH : nat) (x : Q) (xw : W).
  Hypotheses (Hn : 0 < n) (HD : 2 <= DEPTH).
  Notation step := (@ws_step Q W n DEPTH x xw).
  Notation wcyc := (ws_in Q W * ws_out Q W)%type.

  Record WInv (s : ws_st) (t : list wcyc) : Prop := {
    wi_p : exists p, p < n /\ ws_prio s = onehot n p;
    wi_q : HRep DEPTH (ws_f s) (skipn (ends (flat_map wd_to t)) (map fst (flat_map (wq_from n) t)));
    wi_a : HRep DEPTH (ws_a s) (skipn (length (flat_map (wa_to n) t)) (firstn (ends (flat_map wd_to t)) (map fst (flat_map (wq_from n) t))));
    wi_lt : Forall (fun k => k < n) (map fst (flat_map (wq_from n) t));
    wi_as : assigned (map fst (flat_map (wq_from n) t)) (flat_map wd_to t) = Some (flat_map (wd_from n) t);
    wi_al : length (flat_map (wa_to n) t) <= ends (flat_map wd_to t);
    wi_aeq : flat_map (wa_to n) t = firstn (length (flat_map (wa_to n) t)) (map fst (flat_map (wq_from n) t));
    wi_au : length (flat_map wa_from t) = length (flat_map (wa_to n) t);
    wi_wd : map snd (flat_map (wd_from n) t) = flat_map wd_to t;
    wi_req' : map snd (flat_map (wq_from n) t) = flat_map wq_to t }.

  Lemma winv_step s t (i : ws_in Q W) : w_env n i -> WInv s t ->
    WInv (fst (step s i)) (t ++ [(i, snd (step s i))]) /\
    (ovld (ws_f s) = true -> (forall k, fst (fst (wi_w i k)) = true) -> wi_rdy i = true ->
       ends (flat_map wd_to t) < length (flat_map (wa_to n) t) + (DEPTH - 1) -> wd_to (i, snd (step s i)) <> []) /\
    (ovld (ws_f s) = false -> ends (flat_map wd_to t) < length (flat_map (wq_from n) t) -> ovld (ws_f (fst (step s i))) = true) /\
    (ovld (ws_a s) = true -> wi_ack i = true -> (forall k, wi_ackrd i k = true) -> wa_to n (i, snd (step s i)) <> []) /\
    (ovld (ws_a s) = false -> length (flat_map (wa_to n) t) < ends (flat_map wd_to t) -> ovld (ws_a (fst (step s i))) = true).
  Proof.
    intros He [[p [Hp Ep]] Hq Ha Hlt Has Hal Haeq Hau Hwd Hreq].
    set (ow := map fst (flat_map (wq_from n) t)) in *. set (ws := flat_map wd_to t) in *. set (ak := flat_map (wa_to n) t) in *.
    destruct (req_handler x (ws_prio s) (wi_req i) (wi_dprd i) (negb (f_wwait (hf (ws_f s))))) as [[[j dpv] fv] fd] eqn:Er.
    pose proof Er as Er'. rewrite Ep in Er'.
    destruct (req_cycle n x Hn p (wi_req i) (wi_dprd i) _ j dpv fv fd Hp He Er') as [Ej Hc]. clear Er'.
    set (od := dreg (hf (ws_f s))) in *. set (ad := dreg (hf (ws_a s))) in *.
    set (ard := negb (f_wwait (hf (ws_a s)))) in *.
    set (sel_vld := existsb (fun k => (od =? k) && fst (fst (wi_w i k))) (seq 0 n)) in *.
    set (sel_last := existsb (fun k => (od =? k) && snd (wi_w i k)) (seq 0 n)) in *.
    set (sel_ack := existsb (fun k => (ad =? k) && wi_ackrd i k) (seq 0 n)) in *.
    set (fi := mk_hin fv fd (sel_vld && sel_last && wi_rdy i && ard)).
    set (fa := mk_hin (sel_vld && sel_last && wi_rdy i && ovld (ws_f s)) od (wi_ack i && sel_ack)).
    set (o := mk_wso (j_rds (snd j)) dpv (j_data (snd j))
            (fun k => (k <? n) && ((od =? k) && wi_rdy i && ovld (ws_f s) && ard))
            (sel_vld && ovld (ws_f s) && ard, if od <? n then snd (fst (wi_w i od)) else xw, if od <? n then snd (wi_w i od) else false)
            (ovld (ws_a s) && sel_ack)
            (fun k => (k <? n) && (wi_ack i && ovld (ws_a s) && (ad =? k)))).
    assert (step s i = (mk_ws (fst j) (fst (hsf_step DEPTH (ws_f s) fi)) (fst (hsf_step DEPTH (ws_a s) fa)), o)) as Es.
    { unfold ws_step. rewrite Er. reflexivity. }
    rewrite Es. cbn [fst snd].
    pose proof (hrep_step DEPTH HD (ws_f s) _ fi Hq) as H. cbv zeta in H.
    rewrite step_out in H. cbn [h_rd h_vld h_data i_vld i_data i_rd fi] in H. fold od in H.
    destruct H as [Hr [Hh [_ [_ [_ [_ [Hw0 _]]]]]]].
    pose proof (hrep_step DEPTH HD (ws_a s) _ fa Ha) as H. cbv zeta in H.
    rewrite step_out in H. cbn [h_rd h_vld h_data i_vld i_data i_rd fa] in H. fold ad ard in H.
    destruct H as [Ar [Ah [_ [Afree [_ [_ [Aw0 _]]]]]]].
    pose proof (assigned_ends _ _ _ Has) as He'.
    (* requests of the cycle *)
    set (rq := wq_from n (i, o)).
    assert (rq = taken n (wi_req i) (j_rds (snd j))) as Erq by reflexivity.
    assert (map fst rq = (if fv && negb (f_wwait (hf (ws_f s))) then [fd] else []) /\ Forall (fun k => k < n) (map fst rq) /\
            map snd rq = wq_to (i, o)) as [F1 [F2 F3]].
    { rewrite Erq. unfold wq_to. cbn [fst snd o wo_vld wo_req].
      destruct Hc as [[C1 [C2 [C3 _]]]|[C1 [C2 [C3 C4]]]].
      - rewrite C1, C2, C3. repeat split; constructor.
      - rewrite C1, C2, C4. repeat split. repeat constructor. exact C3. }
    (* data of the cycle *)
    assert (wd_to (i, o) = [] /\ wd_from n (i, o) = [] /\ (ovld (ws_f s) && (sel_vld && sel_last && wi_rdy i && ard) = false) /\
            (ovld (ws_f s) = true -> (forall k, fst (fst (wi_w i k)) = true) -> wi_rdy i = true -> ard = true -> False) \/
            exists r w l, skipn (ends ws) ow = od :: r /\ wd_to (i, o) = [(w, l)] /\ wd_from n (i, o) = [(od, (w, l))] /\
              ovld (ws_f s) && (sel_vld && sel_last && wi_rdy i && ard) = l) as Hd.
    { unfold wd_to, wd_from. cbn [fst snd o wo_rdy wo_w].
      destruct (ovld (ws_f s)) eqn:Ev.
      - destruct (Hh eq_refl) as [r Eq].
        assert (od < n) as Hod by (pose proof (skipn_lt n ow (ends ws) Hlt) as G; rewrite Eq in G; inversion G; assumption).
        assert (sel_vld = fst (fst (wi_w i od))) as Esv by (exact (sel_one n od (fun k => fst (fst (wi_w i k))) Hod)).
        assert (sel_last = snd (wi_w i od)) as Esl by (exact (sel_one n od (fun k => snd (wi_w i k)) Hod)).
        rewrite Esv, Esl. cbn [andb].
        rewrite (flat_one _ n od Hod).
        + replace (od <? n) with true by (symmetry; apply Nat.ltb_lt; exact Hod).
          destruct (wi_w i od) as [[v w] l] eqn:Ew. cbn [fst snd]. rewrite Nat.eqb_refl. cbn [andb]. rewrite !andb_true_r.
          destruct (v && ard && wi_rdy i) eqn:E.
          * right. exists r, w, l. apply andb_prop in E. destruct E as [E ->]. apply andb_prop in E. destruct E as [-> ->].
            cbn [andb]. repeat split; [exact Eq|destruct l; reflexivity].
          * left. repeat split.
            -- destruct v, (wi_rdy i), ard; cbn in *; congruence.
            -- destruct v, l, (wi_rdy i), ard; cbn in *; congruence.
            -- intros _ G1 G2 G3. specialize (G1 od). rewrite Ew in G1. cbn in G1. subst v. rewrite G2, G3 in E. discriminate.
        + intros m _ Hm. destruct (wi_w i m) as [[v w] l]. destruct (Nat.eqb_spec od m) as [->|_]; [congruence|]. cbn [andb].
          rewrite !andb_false_r. reflexivity.
      - left. cbn [andb]. rewrite !andb_false_r. repeat split.
        + apply flat_none. intros k _. destruct (wi_w i k) as [[v w] l]. destruct v; [|reflexivity]. cbn [andb]. rewrite ?andb_false_r. reflexivity.
        + discriminate. }
    assert (sel_vld && sel_last && wi_rdy i && ovld (ws_f s) && ard = ovld (ws_f s) && (sel_vld && sel_last && wi_rdy i && ard)) as Epush.
    { destruct sel_vld, sel_last, (wi_rdy i), (ovld (ws_f s)), ard; reflexivity. }
    rewrite Epush in Ar. clear Epush.
    (* acknowledges of the cycle *)
    assert (wa_from (i, o) = [] /\ wa_to n (i, o) = [] /\ (ovld (ws_a s) && (wi_ack i && sel_ack) = false) /\
            (ovld (ws_a s) = true -> wi_ack i = true -> (forall k, wi_ackrd i k = true) -> False) \/
            exists r, skipn (length ak) (firstn (ends ws) ow) = ad :: r /\ wa_from (i, o) = [tt] /\ wa_to n (i, o) = [ad] /\
              ovld (ws_a s) && (wi_ack i && sel_ack) = true) as Hk.
    { unfold wa_from, wa_to. cbn [fst snd o wo_ackrd wo_ack].
      destruct (ovld (ws_a s)) eqn:Ev.
      - destruct (Ah eq_refl) as [r Eq].
        assert (ad < n) as Had.
        { assert (Forall (fun k => k < n) (skipn (length ak) (firstn (ends ws) ow))) as G.
          { apply skipn_lt. rewrite <- (firstn_skipn (ends ws) ow) in Hlt. apply Forall_app in Hlt. apply Hlt. }
          rewrite Eq in G. inversion G; assumption. }
        assert (sel_ack = wi_ackrd i ad) as Esa by (exact (sel_one n ad (wi_ackrd i) Had)).
        rewrite Esa. cbn [andb]. rewrite (flat_one _ n ad Had).
        + replace (ad <? n) with true by (symmetry; apply Nat.ltb_lt; exact Had). rewrite Nat.eqb_refl. cbn [andb]. rewrite !andb_true_r.
          destruct (wi_ack i && wi_ackrd i ad) eqn:E.
          * right. exists r. repeat split. exact Eq.
          * left. repeat split. intros _ G1 G2. rewrite G1, G2 in E. discriminate.
        + intros m _ Hm. destruct (Nat.eqb_spec ad m) as [->|_]; [congruence|]. rewrite !andb_false_r. reflexivity.
      - left. cbn [andb]. rewrite !andb_false_r. repeat split.
        + apply flat_none. intros k _. cbn [andb]. rewrite ?andb_false_r. reflexivity.
        + discriminate. }
    split; [|split; [|split; [|split]]].
    - constructor; rewrite ?flat_map_app; cbn [flat_map]; rewrite ?app_nil_r; fold rq ws ak; cbn [ws_prio ws_f ws_a].
      + exists ((p + 1) mod n). split; [apply Nat.mod_upper_bound; lia|exact Ej].
      + rewrite map_app. fold ow. rewrite ends_app, F1.
        replace (skipn _ _) with ((if ovld (ws_f s) && (sel_vld && sel_last && wi_rdy i && ard) then tl (skipn (ends ws) ow) else skipn (ends ws) ow) ++
          (if fv && negb (f_wwait (hf (ws_f s))) then [fd] else [])); [exact Hr|].
        destruct Hd as [[D1 [D2 [D3 _]]]|[r [w [l [D1 [D2 [D3 D4]]]]]]].
        * rewrite D1, D3, ends_nil, Nat.add_0_r, skipn_app. replace (ends ws - length ow) with 0 by lia. reflexivity.
        * rewrite D2, D4. assert (ends ws < length ow).
          { assert (length (skipn (ends ws) ow) = S (length r)) as G by (rewrite D1; reflexivity). rewrite skipn_length in G. lia. }
          rewrite ends_one. destruct l.
          -- rewrite skipn_app, (skipn_snoc_cons _ _ _ _ D1), D1. replace (ends ws + 1 - length ow) with 0 by lia. reflexivity.
          -- rewrite Nat.add_0_r, skipn_app. replace (ends ws - length ow) with 0 by lia. reflexivity.
      + rewrite map_app. fold ow. rewrite ends_app, app_length.
        assert (firstn (ends ws + ends (wd_to (i, o))) (ow ++ map fst rq) =
                firstn (ends ws) ow ++ (if ovld (ws_f s) && (sel_vld && sel_last && wi_rdy i && ard) then [od] else [])) as Efn.
        { destruct Hd as [[D1 [D2 [D3 _]]]|[r [w [l [D1 [D2 [D3 D4]]]]]]].
          - rewrite D1, D3, ends_nil, Nat.add_0_r, firstn_app. replace (ends ws - length ow) with 0 by lia. rewrite firstn_O, !app_nil_r. reflexivity.
          - rewrite D2, D4, ends_one. assert (ends ws < length ow).
            { assert (length (skipn (ends ws) ow) = S (length r)) as G by (rewrite D1; reflexivity). rewrite skipn_length in G. lia. }
            destruct l.
            + rewrite firstn_app, (firstn_snoc_skip _ _ _ _ D1). replace (ends ws + 1 - length ow) with 0 by lia. rewrite firstn_O, app_nil_r. reflexivity.
            + rewrite Nat.add_0_r, firstn_app. replace (ends ws - length ow) with 0 by lia. rewrite firstn_O, !app_nil_r. reflexivity. }
        rewrite Efn.
        assert (length (firstn (ends ws) ow) = ends ws) as Lf by (rewrite firstn_length; lia).
        match goal with |- HRep _ _ ?l => replace l with ((if ovld (ws_a s) && (wi_ack i && sel_ack) then tl (skipn (length ak) (firstn (ends ws) ow)) else skipn (length ak) (firstn (ends ws) ow)) ++
          (if ovld (ws_f s) && (sel_vld && sel_last && wi_rdy i && ard) then [od] else [])); [exact Ar|] end.
        destruct Hk as [[D1 [D2 [D3 _]]]|[r [D1 [D2 [D3 D4]]]]].
        * rewrite D2, D3. cbn [length]. rewrite Nat.add_0_r, skipn_app, Lf. replace (length ak - ends ws) with 0 by lia. reflexivity.
        * rewrite D3, D4. cbn [length].
          assert (length ak < ends ws).
          { assert (length (skipn (length ak) (firstn (ends ws) ow)) = S (length r)) as G by (rewrite D1; reflexivity). rewrite skipn_length in G. lia. }
          rewrite skipn_app, Lf, (skipn_snoc_cons _ _ _ _ D1), D1. replace (length ak + 1 - ends ws) with 0 by lia. reflexivity.
      + rewrite map_app. apply Forall_app. split; [exact Hlt|exact F2].
      + rewrite map_app. fold ow.
        destruct Hd as [[D1 [D2 _]]|[r [w [l [D1 [D2 [D3 D4]]]]]]].
        * rewrite D1, D2, !app_nil_r. apply assigned_more. exact Has.
        * rewrite D2, D3. apply assigned_more. apply (assigned_snoc _ _ _ _ r); [exact Has|exact D1].
      + rewrite ends_app, app_length. destruct Hk as [[D1 [D2 _]]|[r [D1 [D2 [D3 D4]]]]].
        * rewrite D2. cbn [length]. lia.
        * rewrite D3. cbn [length].
          assert (length (skipn (length ak) (firstn (ends ws) ow)) = S (length r)) as G by (rewrite D1; reflexivity).
          rewrite skipn_length, firstn_length in G. lia.
      + rewrite map_app. fold ow. rewrite app_length. destruct Hk as [[D1 [D2 _]]|[r [D1 [D2 [D3 D4]]]]].
        * rewrite D2. cbn [length]. rewrite app_nil_r, Nat.add_0_r, firstn_app. replace (length ak - length ow) with 0 by lia.
          rewrite firstn_O, app_nil_r. exact Haeq.
        * rewrite D3. cbn [length].
          assert (skipn (length ak) ow = ad :: (r ++ skipn (ends ws) ow)) as G.
          { rewrite <- (firstn_skipn (ends ws) ow) at 1. rewrite skipn_app, D1, firstn_length.
            assert (length (skipn (length ak) (firstn (ends ws) ow)) = S (length r)) as G by (rewrite D1; reflexivity).
            rewrite skipn_length, firstn_length in G. replace (length ak - Nat.min (ends ws) (length ow)) with 0 by lia. reflexivity. }
          assert (length (skipn (length ak) ow) = S (length (r ++ skipn (ends ws) ow))) as G' by (rewrite G; reflexivity).
          rewrite skipn_length in G'.
          rewrite firstn_app, (firstn_snoc_skip _ _ _ _ G). replace (length ak + 1 - length ow) with 0 by lia.
          rewrite firstn_O, app_nil_r, <- Haeq. reflexivity.
      + rewrite !app_length, Hau. destruct Hk as [[D1 [D2 _]]|[r [D1 [D2 [D3 D4]]]]]; [rewrite D1, D2|rewrite D2, D3]; reflexivity.
      + rewrite map_app, Hwd. f_equal. destruct Hd as [[D1 [D2 _]]|[r [w [l [D1 [D2 [D3 D4]]]]]]]; [rewrite D1, D2|rewrite D2, D3]; reflexivity.
      + rewrite map_app, Hreq, F3. reflexivity.
    - intros G1 G2 G3 G4. destruct Hd as [[_ [_ [_ D]]]|[r [w [l [_ [D _]]]]]]; [|rewrite D; discriminate].
      exfalso. apply (D G1 G2 G3). apply Afree. rewrite skipn_length, firstn_length. lia.
    - intros G1 G2. cbn [ws_f]. apply Hw0; [exact G1|]. intros E. apply (f_equal (@length nat)) in E. rewrite skipn_length in E.
      unfold ow in E. rewrite map_length in E. cbn in E. lia.
    - intros G1 G2 G3. destruct Hk as [[_ [_ [_ D]]]|[r [_ [_ [D _]]]]]; [destruct (D G1 G2 G3)|rewrite D; discriminate].
    - intros G1 G2. cbn [ws_a]. apply Aw0; [exact G1|]. intros E. apply (f_equal (@length nat)) in E. rewrite skipn_length, firstn_length in E.
      cbn in E. lia.
  Qed.

  Lemma winv_run m0 m1 d0 d1 (is : list (ws_in Q W)) : Forall (w_env n) is ->
    WInv (final step (ws_init n DEPTH m0 m1 d0 d1) is) (trace step (ws_init n DEPTH m0 m1 d0 d1) is).
  Proof.
    induction is as [|i is IH] using rev_ind; intros H.
    - constructor; try (constructor || reflexivity).
      + exists 0. split; [exact Hn|reflexivity].
      + cbn. apply (hrep_init DEPTH HD [] m0 d0). left. cbn. lia.
      + cbn. apply (hrep_init DEPTH HD [] m1 d1). left. cbn. lia.
    - apply Forall_app in H. destruct H as [H1 H2]. inversion H2; subst.
      rewrite final_snoc, trace_snoc. apply (winv_step _ _ i); [assumption|apply IH; exact H1].
  Qed.

  Lemma w_run m0 m1 d0 d1 (is : list (ws_in Q W)) : Forall (w_env n) is -> w_law n DEPTH (trace step (ws_init n DEPTH m0 m1 d0 d1) is).
  Proof.
    intros H. destruct (winv_run m0 m1 d0 d1 is H) as [_ Hq Ha _ Has Hal Haeq Hau Hwd Hreq].
    pose proof (assigned_ends _ _ _ Has) as L0. rewrite map_length in L0.
    pose proof (hrep_len DEPTH HD _ _ Hq) as L1. rewrite skipn_length, map_length in L1.
    pose proof (hrep_len DEPTH HD _ _ Ha) as L2. rewrite skipn_length, firstn_length, map_length in L2.
    unfold w_law. repeat split; try assumption; lia.
  Qed.

  (** progress: data and acknowledges *)
  Lemma w_move m0 m1 d0 d1 (is : list (ws_in Q W)) (i i' : ws_in Q W) : Forall (w_env n) (is ++ [i; i']) ->
    let s := final step (ws_init n DEPTH m0 m1 d0 d1) is in
    let t := trace step (ws_init n DEPTH m0 m1 d0 d1) is in
    (ends (flat_map wd_to t) < length (flat_map (wq_from n) t) ->
     ends (flat_map wd_to t) < length (flat_map (wa_to n) t) + (DEPTH - 1) ->
     (forall k, fst (fst (wi_w i k)) = true /\ fst (fst (wi_w i' k)) = true) -> wi_rdy i = true -> wi_rdy i' = true ->
     flat_map wd_to (trace step s [i; i']) <> []) /\
    (length (flat_map (wa_to n) t) < ends (flat_map wd_to t) ->
     (forall k, wi_ackrd i k = true /\ wi_ackrd i' k = true) -> wi_ack i = true -> wi_ack i' = true ->
     flat_map (wa_to n) (trace step s [i; i']) <> []).
  Proof.
    intros H s t. apply Forall_app in H. destruct H as [H1 H2]. inversion_clear H2 as [|? ? He He']. inversion_clear He' as [|? ? He2 _].
    destruct (winv_step s _ i He (winv_run m0 m1 d0 d1 is H1)) as [HI [M1 [M2 [M3 M4]]]]. fold t in HI, M1, M2, M3, M4.
    destruct (winv_step _ _ i' He2 HI) as [_ [N1 [_ [N3 _]]]].
    rewrite !trace_cons. cbn [flat_map trace outs run snd combine]. rewrite !app_nil_r. split.
    - intros G1 G2 G3 G4 G5 F. apply app_eq_nil in F. destruct F as [F F'].
      destruct (ovld (ws_f s)) eqn:E; [exact (M1 eq_refl (fun k => proj1 (G3 k)) G4 G2 F)|].
      refine (N1 (M2 eq_refl G1) (fun k => proj2 (G3 k)) G5 _ F').
      rewrite !flat_map_app, app_length. cbn [flat_map]. rewrite !app_nil_r, F, app_nil_r. lia.
    - intros G1 G3 G4 G5 F. apply app_eq_nil in F. destruct F as [F F'].
      destruct (ovld (ws_a s)) eqn:E; [exact (M3 eq_refl G4 (fun k => proj1 (G3 k)) F)|].
      exact (N3 (M4 eq_refl G1) G5 (fun k => proj2 (G3 k)) F').
  Qed.
End Wr.

(** two drivers; driver 1 asks for a read of two words, then driver 0 for one *)
Definition ex_rs : list (rs_in nat nat) :=
  let i r v w l := mk_rsi r true v w l (fun _ => true) in
  [i [(false, 0); (true, 51)] false 0 false; i [(true, 40); (false, 0)] true 7 false; i [(false, 0); (false, 0)] true 7 false;
   i [(false, 0); (false, 0)] true 8 true; i [(false, 0); (false, 0)] true 9 true; i [(false, 0); (false, 0)] true 9 true].
(** two drivers; driver 1 writes a frame of two words, driver 0 a frame of one *)
Definition ex_ws : list (ws_in nat nat) :=
  let i r w0 w1 a := mk_wsi r true (fun k => if k =? 0 then w0 else w1) true a (fun _ => true) in
  let z := [(false, 0); (false, 0)] in
  [i [(false, 0); (true, 51)] (true, 9, true) (true, 7, false) false; i [(true, 40); (false, 0)] (true, 9, true) (true, 7, false) false;
   i z (true, 9, true) (true, 7, false) false; i z (true, 9, true) (true, 8, true) true; i z (true, 9, true) (false, 0, true) true;
   i z (true, 9, true) (false, 0, true) true; i z (false, 0, true) (false, 0, true) true; i z (false, 0, true) (false, 0, true) true].
