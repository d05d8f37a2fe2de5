(** Proofs about IpifBuff. *)
From Verif Require Import Base BaseFacts IpbModel IpbSpec.

Section P.
  Context {P U : Type}.
  Notation step := (ipb_step (P := P) (U := U)).
  (** [ins]: accesses which ended on m and not yet on s *)
  Definition Inv (s : ipb P U) (ob : option P) (ins : list (P * U * bool * bool)) : Prop :=
    if b_rdack s || b_wrack s then exists p, ob = Some p /\ ins = [(p, b_up s, b_rdack s, b_wrack s)]
    else ins = [] /\ (b_cs s = true -> ob = Some (b_down s)).

  Lemma inv_run is : forall s ob ins, Inv s ob ins -> let t := trace step s is in Forall slave_ok t -> master_ok ob t ->
    exists ins', length ins' <= 1 /\ ins ++ m_accs t = s_accs t ++ ins'.
  Proof.
    induction is as [|i is IH]; intros s ob ins H t F M.
    - exists ins. split; [|cbn; rewrite app_nil_r; reflexivity]. unfold Inv in H.
      destruct (b_rdack s || b_wrack s); [destruct H as (p & _ & ->); cbn; lia|destruct H as [-> _]; cbn; lia].
    - unfold t in *. rewrite trace_cons in *. pose proof (Forall_inv F) as F1. apply Forall_inv_tail in F. destruct M as [M1 M2]. cbn [fst snd] in *.
      set (s' := fst (step s i)) in *.
      set (ob' := if bi_cs i && negb (bo_rdack (snd (step s i)) || bo_wrack (snd (step s i))) then Some (bi_p i) else None) in *.
      assert (K : exists ins1, Inv s' ob' ins1 /\ ins ++ m_acc (i, snd (step s i)) = s_acc (i, snd (step s i)) ++ ins1).
      { unfold Inv in H. destruct s as [dn up rk wk cs], i as [ics ip iu irk iwk]. unfold slave_ok in F1. unfold s', ob', Inv, m_acc, s_acc.
        cbn [step ipb_step fst snd bi_cs bi_p bi_u bi_rdack bi_wrack bo_cs bo_p bo_u bo_rdack bo_wrack b_down b_up b_rdack b_wrack b_cs] in *.
        destruct (rk || wk) eqn:Ek.
        - destruct H as (p & -> & ->). destruct M1 as [-> ->]. destruct (irk || iwk); [specialize (F1 eq_refl); discriminate|].
          cbn [andb negb]. exists []. rewrite app_nil_r. split; [split; [reflexivity|discriminate]|reflexivity].
        - destruct H as [-> Hc]. cbn [app negb]. rewrite andb_false_r, andb_true_r. destruct (irk || iwk) eqn:Ei.
          + specialize (F1 eq_refl). subst cs. specialize (Hc eq_refl). subst ob. destruct M1 as [-> ->]. cbn [andb].
            eexists. split; [exists dn; split; reflexivity|reflexivity].
          + rewrite andb_false_r. exists []. split; [split; [reflexivity|]|reflexivity]. destruct ics; [reflexivity|discriminate]. }
      destruct K as (ins1 & K1 & K2). destruct (IH s' ob' ins1 K1 F M2) as (ins' & L & E). exists ins'. split; [exact L|].
      unfold m_accs, s_accs in *. cbn [flat_map]. rewrite app_assoc, K2, <- !app_assoc, E. reflexivity.
  Qed.

  Lemma ipb_transparent p u r w i is : let t := trace step (ipb_init p u r w) (i :: is) in
    bi_cs i = false -> Forall slave_ok t -> master_ok None t ->
    exists ins, length ins <= 1 /\ m_accs t = s_accs t ++ ins.
  Proof.
    intros t Hi F M. unfold t in *. rewrite trace_cons in *. pose proof (Forall_inv F) as F1. apply Forall_inv_tail in F.
    destruct M as [_ M]. cbn [fst snd] in *. rewrite Hi in M. cbn [andb] in M.
    assert (C : bo_cs (snd (step (ipb_init p u r w) i)) = false) by (cbn; destruct (r || w); reflexivity).
    unfold slave_ok in F1. cbn [fst snd] in F1. rewrite C in F1.
    assert (A : bi_rdack i || bi_wrack i = false) by (destruct (bi_rdack i || bi_wrack i); [specialize (F1 eq_refl); discriminate|reflexivity]).
    assert (I0 : Inv (fst (step (ipb_init p u r w) i)) None []).
    { unfold Inv. cbn. rewrite A. split; [reflexivity|]. rewrite Hi. destruct (r || w); discriminate. }
    destruct (inv_run is _ _ _ I0 F M) as (ins & L & E). exists ins. split; [exact L|].
    unfold m_accs, s_accs in *. cbn [flat_map app]. unfold m_acc at 1, s_acc at 1. cbn [fst snd]. rewrite C, Hi. exact E.
  Qed.

  (** latency: a request without interruption arrives in the next cycle, an acknowledge in the next one *)
  Lemma ipb_latency (s : ipb P U) i j : bo_rdack (snd (step s i)) || bo_wrack (snd (step s i)) = false ->
    let o := snd (step (fst (step s i)) j) in
    bo_rdack o = bi_rdack i /\ bo_wrack o = bi_wrack i /\ bo_u o = bi_u i /\
    bo_p o = bi_p i /\ (bi_rdack i || bi_wrack i = false -> bo_cs o = bi_cs i).
  Proof. intros H. cbn in *. rewrite H. repeat split. intros ->. reflexivity. Qed.
End P.
