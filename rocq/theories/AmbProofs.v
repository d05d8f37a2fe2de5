From Verif Require Import Base BaseFacts StreamSpec StreamFacts HsRegModel FifoModel FifoSpec FifoProofs HsFifoProofs AvmProofs AmbModel AmbSpec.

Section Buf.
  Context {A : Type}.
  Variable DB : nat.
  Definition BRep (b : buf A) (q : list A) : Prop :=
    match b with BReg s => sk s = KLat /\ q = (if occ s then [sdat s] else []) | BFifo s => 2 <= DB /\ HRep DB s q end.
  Lemma buf_law b q v x rd : BRep b q -> let '(b', (r, ov, od)) := buf_step DB b v x rd in
    exists q', BRep b' q' /\ q ++ (if v && r then [x] else []) = (if ov && rd then [od] else []) ++ q' /\
      (ov = true -> In od q) /\ (ov = false -> rd = true -> (exists s, b = BReg s) -> q = []).
  Proof.
    destruct b as [s|s]; cbn [buf_step BRep].
    - intros [K ->]. destruct s as [k o y]; cbn in *; subst k. destruct o, rd, v; cbn; eexists; split; try (split; reflexivity); cbn; repeat split; auto; try discriminate.
    - intros [H2 R]. pose proof (hs_next DB H2 s q (mk_hin v x rd) R) as N. pose proof (hs_head DB H2 s q (mk_hin v x rd) R) as Hh.
      destruct (hs_out DB s (mk_hin v x rd)) as [O1 O2]. destruct (hsf_step DB s (mk_hin v x rd)) as [s' o]. cbn [fst snd i_rd i_vld i_data] in *.
      rewrite O1, O2. eexists. split; [split; [exact H2|exact N]|]. split.
      + destruct (ovld s) eqn:E; cbn [andb]; [|reflexivity]. destruct (Hh eq_refl) as [q' ->]. destruct rd; reflexivity.
      + split; [intros E; destruct (Hh E) as [q' ->]; left; reflexivity|]. intros _ _ [y Hy]. discriminate Hy.
  Qed.
  Lemma brep_len b q : BRep b q -> length q <= Nat.max 1 DB.
  Proof.
    destruct b as [s|s]; unfold BRep.
    - intros [_ ->]. destruct (occ s); cbn [length]; lia.
    - intros [H R]. pose proof (hrep_len DB H s q R). lia.
  Qed.
  Lemma buf_stable b q v x v2 x2 rd2 : BRep b q -> let '(b', (_, ov, od)) := buf_step DB b v x false in let '(_, (_, ov2, od2)) := buf_step DB b' v2 x2 rd2 in
    ov = true -> ov2 = true /\ od2 = od.
  Proof.
    destruct b as [s|s]; cbn [buf_step BRep].
    - intros [K _]. destruct s as [k o y]; cbn in *; subst k. intros ->. cbn. rewrite ?andb_false_r. auto.
    - intros [H2 R]. destruct (hrep_step DB H2 s q (mk_hin v x false) R) as (_ & _ & Hs & _).
      destruct (hs_out DB s (mk_hin v x false)) as [O1 _]. destruct (hsf_step DB s (mk_hin v x false)) as [s' o]. cbn [fst snd i_rd] in *. cbn.
      pose proof (step_out DB s' (mk_hin v2 x2 rd2)) as So. destruct (hsf_step DB s' (mk_hin v2 x2 rd2)) as [s2 o2]. cbn [fst snd] in *. subst o2. cbn.
      intros E. apply Hs; auto.
  Qed.
  Lemma buf_offer b q v x rd v2 x2 rd2 : BRep b q -> q <> [] -> let '(b', (_, ov, od)) := buf_step DB b v x rd in let '(_, (_, ov2, od2)) := buf_step DB b' v2 x2 rd2 in
    ov && rd = true \/ ov2 = true.
  Proof.
    destruct b as [s|s]; cbn [buf_step BRep].
    - intros [K ->] Hq. destruct s as [k o y]; cbn in *; subst k. destruct o; [|congruence]. destruct rd, v; cbn; auto.
    - intros [H2 R] Hq. destruct (hrep_step DB H2 s q (mk_hin v x rd) R) as (_ & _ & Hs & _ & _ & _ & Hv & _).
      destruct (hs_out DB s (mk_hin v x rd)) as [O1 _]. destruct (hsf_step DB s (mk_hin v x rd)) as [s' o]. cbn [fst snd i_rd] in *. cbn.
      pose proof (step_out DB s' (mk_hin v2 x2 rd2)) as So. destruct (hsf_step DB s' (mk_hin v2 x2 rd2)) as [s2 o2]. cbn [fst snd] in *. subst o2. cbn.
      destruct (h_vld o); [destruct rd; [left; reflexivity|right; apply Hs; reflexivity]|right; apply Hv; auto].
  Qed.
  Lemma buf_free b v x rd : BRep b [] -> fst (fst (snd (buf_step DB b v x rd))) = true.
  Proof.
    destruct b as [s|s]; cbn [buf_step BRep].
    - intros [K E]. destruct s as [k o y]; cbn in *; subst k. destruct o; [discriminate E|reflexivity].
    - intros [H2 R]. destruct (hrep_step DB H2 s [] (mk_hin v x rd) R) as (_ & _ & _ & Hf & _). destruct (hsf_step DB s _) as [s' o]. cbn in *. apply Hf. lia.
  Qed.
  Lemma mk_rep ab m x : params_ok ab DB -> BRep (mk_buff ab DB m x) [].
  Proof.
    intros H. unfold mk_buff. destruct (Nat.eqb_spec ab 1) as [E|E]; [split; reflexivity|]. destruct H as [[_ H]|H]; [congruence|].
    split; [exact H|]. apply hrep_init; [exact H|]. destruct (Nat.eq_dec DB 2); [right; cbn; lia|left; cbn; lia].
  Qed.

  (** answers on their way *)
  Definition ol (o : option A) : list A := match o with Some x => [x] | None => [] end.
  Definition some (o : option A) : bool := match o with Some _ => true | None => false end.
  Definition Pend (b : buf A) (p : list (option A)) : Prop :=
    match b with
    | BReg s => sk s = KLat /\ p = [if occ s then Some (sdat s) else None]
    | BFifo s => 3 <= DB /\ exists p2 p1, p = [p2; p1] /\ HRep DB s (ol p2 ++ ol p1) /\ ovld s = some p2
    end.
  Lemma pend_step b p v x : Pend b p -> let '(b', (_, ov, od)) := buf_step DB b v x true in
    exists y p', p = y :: p' /\ (if ov then Some od else None) = y /\ Pend b' (p' ++ [if v then Some x else None]).
  Proof.
    destruct b as [s|s]; cbn [buf_step Pend].
    - intros [K ->]. destruct s as [k o y]; cbn in *; subst k. eexists _, []. split; [reflexivity|]. split; [reflexivity|]. split; [reflexivity|].
      destruct o, v; reflexivity.
    - intros [H3 (p2 & p1 & -> & R & Eo)]. assert (2 <= DB) as H2 by lia.
      pose proof (hs_next DB H2 s _ (mk_hin v x true) R) as N. pose proof (hs_head DB H2 s _ (mk_hin v x true) R) as Hh.
      pose proof (hs_ovld DB H2 s _ (mk_hin v x true) R) as Ov. rewrite (hs_wwait DB H2 s _ R) in N.
      destruct (hs_out DB s (mk_hin v x true)) as [O1 O2]. destruct (hsf_step DB s (mk_hin v x true)) as [s' o]. cbn [fst snd i_rd i_vld i_data orb] in *.
      exists p2, [p1]. split; [reflexivity|]. rewrite O1, Eo in *. split.
      + destruct p2 as [y|]; [|reflexivity]. destruct (Hh eq_refl) as [q' E]. cbn in E. injection E as E _. rewrite <- E. reflexivity.
      + split; [exact H3|]. exists p1, (if v then Some x else None). split; [reflexivity|]. split.
        * destruct (Nat.eqb_spec (length (ol p2 ++ ol p1)) (DB - 1 + b2n (some p2))) as [E|E].
          -- exfalso. destruct p2, p1; cbn in E; lia.
          -- cbn [negb] in N. rewrite andb_true_r in N. destruct p2, v; cbn in *; exact N.
        * rewrite Ov. destruct p2, p1; reflexivity.
  Qed.
End Buf.

Section Amb.
  Context {P D R : Type}.
  Variables AB DB : nat.
  Notation step := (amb_step (P := P) (D := D) (R := R) DB).
  Notation cyc := (amb_in P D R * amb_out P D R)%type.

  Definition QP (s : amb_st P D R) (q : list (rq P)) : Prop := BRep DB (ad s) q /\ Forall (fun x => asks x = true) q.
  Lemma amb_q1 s q i : QP s q -> exists q', QP (fst (step s i)) q' /\
    q ++ acc1 (rq_obs (i, snd (step s i))) = del1 (rq_obs (i, snd (step s i))) ++ q'.
  Proof.
    intros [H F]. unfold amb_step. destruct (buf_step DB (rb s) _ _ _) as [rb' [[x1 rv] rd]]. destruct (buf_step DB (wb s) _ _ _) as [wb' [[x2 wv] wr]].
    pose proof (buf_law DB (ad s) q (asks (a_rq i)) (a_rq i) (negb (a_wait i)) H) as L.
    destruct (buf_step DB (ad s) _ _ _) as [ad' [[r v] y]]. destruct L as (q' & B & E & Hin & _). exists q'. cbn [fst snd]. unfold acc1, del1, rq_obs. cbn.
    rewrite negb_involutive.
    assert (forall z, In z q -> asks z = true) as Fa by (intros z; apply (proj1 (Forall_forall _ _) F)).
    assert (asks (fst (fst y) && v, snd (fst y) && v, snd y) = v /\ (v = true -> (fst (fst y) && v, snd (fst y) && v, snd y) = y)) as [Ea Ey].
    { unfold asks. cbn. destruct v; [specialize (Fa y (Hin eq_refl)); unfold asks in Fa; rewrite !andb_true_r; destruct y as [[a b] c]; auto|].
      rewrite !andb_false_r. split; [reflexivity|discriminate]. }
    rewrite Ea. split; [split; [exact B|]|].
    - assert (Forall (fun x => asks x = true) (q ++ (if asks (a_rq i) && r then [a_rq i] else []))) as F2.
      { apply Forall_app. split; [exact F|]. destruct (asks (a_rq i)) eqn:E1, r; cbn; auto. }
      rewrite E in F2. apply Forall_app in F2. apply F2.
    - rewrite E. f_equal. destruct v; [|reflexivity]. rewrite Ey by reflexivity. reflexivity.
  Qed.
  Lemma amb_qrun s q is : QP s q -> exists q', QP (final step s is) q' /\
    q ++ accepted (map rq_obs (trace step s is)) = delivered (map rq_obs (trace step s is)) ++ q'.
  Proof.
    revert s q. induction is as [|i is IH]; intros s q H.
    - exists q. split; [exact H|]. cbn. rewrite app_nil_r. reflexivity.
    - destruct (amb_q1 s q i H) as (q1 & H1 & E1). destruct (IH _ _ H1) as (q2 & H2 & E2). exists q2. rewrite final_cons. split; [exact H2|].
      rewrite trace_cons, map_cons, accepted_cons, delivered_cons. fold (acc1 (rq_obs (i, snd (step s i)))). fold (del1 (rq_obs (i, snd (step s i)))).
      rewrite app_assoc, E1, <- !app_assoc, E2. reflexivity.
  Qed.
  Lemma amb_requests m1 x1 m2 x2 m3 x3 is : params_ok AB DB -> let t := map rq_obs (trace step (amb_init AB DB m1 x1 m2 x2 m3 x3) is) in
    queue_law (Nat.max 1 DB) [] t /\ out_stable t.
  Proof.
    intros H t. assert (QP (amb_init AB DB m1 x1 m2 x2 m3 x3) []) as Q0 by (split; [apply mk_rep; exact H|constructor]). split.
    - destruct (amb_qrun _ _ is Q0) as (q & [B _] & E). exists q. split; [exact E|]. apply (brep_len DB _ _ B).
    - unfold t. clear t. revert Q0. generalize (amb_init AB DB m1 x1 m2 x2 m3 x3) as s. generalize (@nil (rq P)) as q. induction is as [|i is IH]; intros q s Q0; [exact Logic.I|].
      destruct (amb_q1 s q i Q0) as (q1 & Q1 & _). specialize (IH _ _ Q1). rewrite trace_cons, map_cons. destruct is as [|j is]; [exact Logic.I|].
      rewrite trace_cons, map_cons in *. split; [|exact IH]. unfold rq_obs. cbn [out_vld out_rd out_data fst snd].
      destruct Q0 as [B0 F0]. unfold amb_step. destruct (buf_step DB (rb s) _ _ _) as [rb' [[u1 rv] rd]]. destruct (buf_step DB (wb s) _ _ _) as [wb' [[u2 wv] wr]].
      intros Ev Ew. destruct (a_wait i) eqn:Ewt; [|discriminate Ew]. cbn [negb] in *.
      pose proof (buf_stable DB (ad s) q (asks (a_rq i)) (a_rq i) (asks (a_rq j)) (a_rq j) (negb (a_wait j)) B0) as St.
      destruct (buf_step DB (ad s) _ _ _) as [ad' [[r v] y]]. cbn [fst snd ad] in *.
      destruct (buf_step DB (rb (mk_am ad' rb' wb')) _ _ _) as [rb2 [[u3 rv2] rd2]]. destruct (buf_step DB (wb (mk_am ad' rb' wb')) _ _ _) as [wb2 [[u4 wv2] wr2]]. cbn [ad].
      destruct (buf_step DB ad' _ _ _) as [ad2 [[r2 v2] y2]]. cbn [fst snd b_rq] in *.
      assert (v = true) as -> by (unfold asks in Ev; cbn in Ev; destruct v; [reflexivity|rewrite !andb_false_r in Ev; discriminate Ev]).
      destruct (St eq_refl) as [-> ->]. auto.
  Qed.

  Lemma amb_offer m1 x1 m2 x2 m3 x3 is i j : params_ok AB DB -> let s0 := amb_init AB DB m1 x1 m2 x2 m3 x3 in let t := map rq_obs (trace step s0 is) in let s := final step s0 is in
    (delivered t = accepted t -> b_wait (snd (step s i)) = false) /\
    (delivered t <> accepted t -> asks (b_rq (snd (step s i))) && negb (a_wait i) = true \/ asks (b_rq (snd (step (fst (step s i)) j))) = true).
  Proof.
    intros H s0 t s. assert (QP s0 []) as Q0 by (split; [apply mk_rep; exact H|constructor]). destruct (amb_qrun _ _ is Q0) as (q & Q & E).
    fold t in E. fold s in Q. cbn [app] in E. split.
    - intros E2. rewrite E2 in E. rewrite <- (app_nil_r (accepted t)) in E at 1. apply app_inv_head in E. subst q. destruct Q as [B _].
      pose proof (buf_free DB (ad s) (asks (a_rq i)) (a_rq i) (negb (a_wait i)) B) as F.
      unfold amb_step. destruct (buf_step DB (rb s) _ _ _) as [rb' [[u1 rv] rd]]. destruct (buf_step DB (wb s) _ _ _) as [wb' [[u2 wv] wr]].
      destruct (buf_step DB (ad s) _ _ _) as [ad' [[r v] y]]. cbn in *. rewrite F. reflexivity.
    - intros E2. assert (q <> []) as Hq by (intros ->; apply E2; rewrite E, app_nil_r; reflexivity).
      destruct (amb_q1 s q i Q) as (q1 & [B1 F1] & _). destruct Q as [B F].
      pose proof (buf_offer DB (ad s) q (asks (a_rq i)) (a_rq i) (negb (a_wait i)) (asks (a_rq j)) (a_rq j) (negb (a_wait j)) B Hq) as Of.
      pose proof (buf_law DB (ad s) q (asks (a_rq i)) (a_rq i) (negb (a_wait i)) B) as L1.
      revert B1. unfold amb_step. destruct (buf_step DB (rb s) _ _ _) as [rb' [[u1 rv] rd]]. destruct (buf_step DB (wb s) _ _ _) as [wb' [[u2 wv] wr]].
      destruct (buf_step DB (ad s) _ _ _) as [ad' [[r v] y]]. cbn [fst snd ad]. intros B1.
      pose proof (buf_law DB ad' q1 (asks (a_rq j)) (a_rq j) (negb (a_wait j)) B1) as L2.
      destruct (buf_step DB (rb (mk_am ad' rb' wb')) _ _ _) as [rb2 [[u3 rv2] rd2]]. destruct (buf_step DB (wb (mk_am ad' rb' wb')) _ _ _) as [wb2 [[u4 wv2] wr2]].
      destruct (buf_step DB ad' _ _ _) as [ad2 [[r2 v2] y2]]. cbn [fst snd b_rq]. destruct L1 as (_ & _ & _ & I1 & _), L2 as (_ & _ & _ & I2 & _).
      rewrite Forall_forall in F, F1. unfold asks in *. cbn [fst snd].
      destruct Of as [Of|Of].
      + left. apply andb_prop in Of. destruct Of as [Ov Ow]. rewrite Ov, Ow, !andb_true_r. apply F, I1, Ov.
      + right. rewrite Of, !andb_true_r. apply F1, I2, Of.
  Qed.

  Lemma amb_rd s p is : Pend DB (rb s) p -> map rd_s (trace step s is) = firstn (length is) (p ++ map rd_m (trace step s is)).
  Proof.
    revert s p. induction is as [|i is IH]; intros s p H; [reflexivity|]. rewrite trace_cons, !map_cons.
    pose proof (pend_step DB (rb s) p (a_rv i) (a_rd i) H) as N.
    assert (rd_s (i, snd (step s i)) = (let '(_, (_, ov, od)) := buf_step DB (rb s) (a_rv i) (a_rd i) true in if ov then Some od else None) /\
            rb (fst (step s i)) = fst (buf_step DB (rb s) (a_rv i) (a_rd i) true)) as [E1 E2].
    { unfold amb_step. destruct (buf_step DB (rb s) _ _ _) as [rb' [[u1 rv] rd]]. destruct (buf_step DB (wb s) _ _ _) as [wb' [[u2 wv] wr]].
      destruct (buf_step DB (ad s) _ _ _) as [ad' [[r v] y]]. auto. }
    rewrite E1. destruct (buf_step DB (rb s) _ _ _) as [b' [[u ov] od]]. destruct N as (y & p' & -> & -> & N). cbn [fst] in E2. rewrite <- E2 in N.
    cbn [length firstn app]. f_equal. rewrite (IH _ _ N), <- app_assoc. reflexivity.
  Qed.
  Lemma amb_wr s p is : Pend DB (wb s) p -> map wr_s (trace step s is) = firstn (length is) (p ++ map wr_m (trace step s is)).
  Proof.
    revert s p. induction is as [|i is IH]; intros s p H; [reflexivity|]. rewrite trace_cons, !map_cons.
    pose proof (pend_step DB (wb s) p (a_wv i) (a_wr i) H) as N.
    assert (wr_s (i, snd (step s i)) = (let '(_, (_, ov, od)) := buf_step DB (wb s) (a_wv i) (a_wr i) true in if ov then Some od else None) /\
            wb (fst (step s i)) = fst (buf_step DB (wb s) (a_wv i) (a_wr i) true)) as [E1 E2].
    { unfold amb_step. destruct (buf_step DB (rb s) _ _ _) as [rb' [[u1 rv] rd]]. destruct (buf_step DB (wb s) _ _ _) as [wb' [[u2 wv] wr]].
      destruct (buf_step DB (ad s) _ _ _) as [ad' [[r v] y]]. auto. }
    rewrite E1. destruct (buf_step DB (wb s) _ _ _) as [b' [[u ov] od]]. destruct N as (y & p' & -> & -> & N). cbn [fst] in E2. rewrite <- E2 in N.
    cbn [length firstn app]. f_equal. rewrite (IH _ _ N), <- app_assoc. reflexivity.
  Qed.
  Lemma mk_pend {A} (m : nat -> A) x : DB = 1 \/ 3 <= DB -> Pend DB (mk_buff DB DB m x) (repeat None (delay_of DB)).
  Proof.
    intros H. unfold mk_buff, delay_of. destruct (Nat.eqb_spec DB 1) as [E|E]; [split; reflexivity|].
    destruct H as [H|H]; [congruence|]. split; [exact H|]. exists None, None. split; [reflexivity|]. split.
    - apply hrep_init; [lia|]. left. cbn. lia.
    - unfold hsf_init. cbn [length]. destruct DB; [lia|reflexivity].
  Qed.
  Lemma amb_answers m1 x1 m2 x2 m3 x3 is : DB = 1 \/ 3 <= DB -> let t := trace step (amb_init AB DB m1 x1 m2 x2 m3 x3) is in
    delayed (delay_of DB) (map rd_m t) (map rd_s t) /\ delayed (delay_of DB) (map wr_m t) (map wr_s t).
  Proof.
    intros H t. unfold delayed. rewrite !map_length. unfold t. rewrite trace_length. split; [apply amb_rd|apply amb_wr]; apply mk_pend; exact H.
  Qed.
End Amb.
