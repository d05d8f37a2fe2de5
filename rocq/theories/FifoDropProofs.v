From Verif Require Import Base BaseFacts FifoModel FifoProofs FifoDropModel FifoDropSpec.

Section Rep.
  Context {A : Type} (D : nat) (HD : 0 < D).

  Record DRep (s : fd_st A) (q t : list A) : Prop := {
    dr_w : d_wr s < D;
    dr_wt : d_wrt s < D;
    dr_r : d_rd s < D;
    dr_len : length q + length t <= D;
    dr_pos : if d_loop s then d_wr s + D = d_rd s + length q else d_wr s = d_rd s + length q;
    dr_post : if d_loopt s then d_wrt s + D = d_rd s + (length q + length t)
              else d_wrt s = d_rd s + (length q + length t);
    dr_mem : forall k, k < length q + length t -> nth_error (q ++ t) k = Some (d_mem s (idx D (d_rd s) k));
    dr_size : d_size s = length q;
    dr_stash : d_stash s = length t }.

  Lemma dr_init m0 d0 : DRep (fd_init D m0 d0) [] [].
  Proof. constructor; simpl; auto; lia. Qed.

  Lemma dr_wwait s q t : DRep s q t -> ((d_wrt s =? d_rd s) && d_loopt s) = (length q + length t =? D).
  Proof.
    intros [H1 H2 H3 H4 H5 H6 _ _ _].
    destruct (d_loopt s), (Nat.eqb_spec (d_wrt s) (d_rd s)), (Nat.eqb_spec (length q + length t) D); simpl; lia.
  Qed.

  Lemma dr_rwait s q t : DRep s q t -> ((d_wr s =? d_rd s) && negb (d_loop s)) = (length q =? 0).
  Proof.
    intros [H1 H2 H3 H4 H5 H6 _ _ _].
    destruct (d_loop s), (Nat.eqb_spec (d_wr s) (d_rd s)), (Nat.eqb_spec (length q) 0); simpl; lia.
  Qed.

  Definition q1 (q t : list A) (i : fd_in A) : list A :=
    if fi_discard i then q else if fi_en i && fi_commit i then q ++ t ++ [fi_data i] else q.
  Definition t1 (t : list A) (i : fd_in A) : list A :=
    if fi_discard i then [] else if fi_en i then (if fi_commit i then [] else t ++ [fi_data i]) else t.

  Lemma wadd_small a b : a + b <= D -> wadd (size_w D) a b = a + b.
  Proof. intros H. apply wrap_small. unfold size_w. pose proof (log2ceil_ge (D + 1)). lia. Qed.

  Lemma dr_step s q t i : DRep s q t ->
    (fi_en i = true -> length q + length t < D) ->
    (fi_ren i = true -> 0 < length q) ->
    (fi_commit i = true -> fi_discard i = false) ->
    (fi_discard i = true -> fi_ren i = false) ->
    DRep (fst (fd_step D s i)) (if fi_ren i then tl (q1 q t i) else q1 q t i) (t1 t i) /\
    (fi_ren i = true -> exists x q', q = x :: q' /\ fo_rdata (snd (fd_step D s i)) = x).
  Proof.
    intros R Hw Hr Hcd Hdr. pose proof R as R'. destruct R' as [H1 H2 H3 H4 H5 H6 H7 H8 H9].
    assert (fi_en i && (negb (d_loopt s) || negb (d_wrt s =? d_rd s)) = fi_en i) as Ewr.
    { pose proof (dr_wwait s q t R) as E. destruct (fi_en i); [|reflexivity]. specialize (Hw eq_refl).
      destruct (d_loopt s), (d_wrt s =? d_rd s), (Nat.eqb_spec (length q + length t) D); simpl in *; try reflexivity; try discriminate; lia. }
    assert (fi_ren i && (d_loop s || negb (d_wr s =? d_rd s)) = fi_ren i) as Erd.
    { pose proof (dr_rwait s q t R) as E. destruct (fi_ren i); [|reflexivity]. specialize (Hr eq_refl).
      destruct (d_loop s), (d_wr s =? d_rd s), (Nat.eqb_spec (length q) 0); simpl in *; try reflexivity; try discriminate; lia. }
    unfold fd_step. rewrite Ewr, Erd. cbn [fst snd fo_rdata].
    assert (length (q1 q t i) = if fi_discard i then length q else if fi_en i && fi_commit i then length q + length t + 1 else length q) as L1.
    { unfold q1. destruct (fi_discard i), (fi_en i && fi_commit i); rewrite ?app_length; simpl; rewrite ?app_length; simpl; lia. }
    assert (length (t1 t i) = if fi_discard i then 0 else if fi_en i then (if fi_commit i then 0 else length t + 1) else length t) as L2.
    { unfold t1. destruct (fi_discard i), (fi_en i), (fi_commit i); rewrite ?app_length; simpl; lia. }
    assert (length (if fi_ren i then tl (q1 q t i) else q1 q t i) = length (q1 q t i) - (if fi_ren i then 1 else 0)) as L3.
    { destruct (fi_ren i); [destruct (q1 q t i); simpl; lia|lia]. }
    split.
    - constructor; cbn [d_wr d_wrt d_rd d_loop d_loopt d_mem d_size d_stash]; rewrite ?L3, ?L1, ?L2.
      + destruct (fi_discard i); [assumption|]. destruct (fi_en i); cbn [andb]; [|assumption].
        destruct (fi_commit i); [|assumption]. rewrite (ptr_inc_eq D HD) by assumption.
        destruct (Nat.eqb_spec (d_wrt s) (D - 1)); lia.
      + destruct (fi_discard i); [assumption|]. destruct (fi_en i); [|assumption].
        rewrite (ptr_inc_eq D HD) by assumption. destruct (Nat.eqb_spec (d_wrt s) (D - 1)); lia.
      + destruct (fi_ren i); [|assumption]. rewrite (ptr_inc_eq D HD) by assumption.
        destruct (Nat.eqb_spec (d_rd s) (D - 1)); lia.
      + destruct (fi_discard i), (fi_en i), (fi_commit i), (fi_ren i); cbn [andb];
          try specialize (Hw eq_refl); try specialize (Hr eq_refl); lia.
      + destruct (fi_discard i), (fi_en i), (fi_commit i), (fi_ren i); cbn [andb];
          try (discriminate (Hcd eq_refl)); try (discriminate (Hdr eq_refl));
          try specialize (Hw eq_refl); try specialize (Hr eq_refl);
          rewrite ?(ptr_inc_eq D HD) by assumption;
          destruct (Nat.eqb_spec (d_wrt s) (D - 1)), (Nat.eqb_spec (d_rd s) (D - 1));
          destruct (d_loop s), (d_loopt s); lia.
      + destruct (fi_discard i), (fi_en i), (fi_commit i), (fi_ren i); cbn [andb];
          try (discriminate (Hcd eq_refl)); try (discriminate (Hdr eq_refl));
          try specialize (Hw eq_refl); try specialize (Hr eq_refl);
          rewrite ?(ptr_inc_eq D HD) by assumption;
          destruct (Nat.eqb_spec (d_wrt s) (D - 1)), (Nat.eqb_spec (d_rd s) (D - 1));
          destruct (d_loop s), (d_loopt s); lia.
      + (* memory *)
        set (all := q ++ t) in *.
        assert (length all = length q + length t) as La by apply app_length.
        set (all1 := if fi_en i then all ++ [fi_data i] else all).
        set (mem' := if fi_en i then upd (d_mem s) (d_wrt s) (fi_data i) else d_mem s).
        assert (forall k, k < length all1 -> nth_error all1 k = Some (mem' (idx D (d_rd s) k))) as Hm1.
        { intros k Hk. unfold all1, mem' in *. destruct (fi_en i) eqn:Een; [|apply H7; lia].
          specialize (Hw eq_refl). rewrite app_length in Hk. simpl in Hk.
          destruct (Nat.lt_ge_cases k (length all)) as [L|L].
          - rewrite nth_error_app1 by exact L. rewrite upd_neq; [apply H7; lia|].
            unfold idx. destruct (d_loopt s), (Nat.ltb_spec (d_rd s + k) D); lia.
          - assert (k = length all) as -> by lia. rewrite nth_error_app2, Nat.sub_diag by lia. cbn [nth_error].
            assert (idx D (d_rd s) (length all) = d_wrt s) as ->; [|rewrite upd_eq; reflexivity].
            unfold idx. rewrite La. destruct (d_loopt s), (Nat.ltb_spec (d_rd s + (length q + length t)) D); lia. }
        assert (exists r, all1 = (q1 q t i ++ t1 t i) ++ r) as [r Hpre].
        { unfold all1, all, q1, t1. destruct (fi_discard i).
          - exists (t ++ if fi_en i then [fi_data i] else []). destruct (fi_en i); rewrite !app_nil_r, ?app_assoc; reflexivity.
          - exists []. rewrite app_nil_r. destruct (fi_en i), (fi_commit i); cbn [andb];
              rewrite ?app_nil_r, ?app_assoc; reflexivity. }
        intros k Hk.
        assert (k + (if fi_ren i then 1 else 0) < length (q1 q t i ++ t1 t i)) as Hk'.
        { rewrite app_length, L1, L2. destruct (fi_discard i), (fi_en i), (fi_commit i), (fi_ren i); cbn [andb] in *;
            try (discriminate (Hdr eq_refl)); try specialize (Hr eq_refl); lia. }
        assert (nth_error ((if fi_ren i then tl (q1 q t i) else q1 q t i) ++ t1 t i) k =
                nth_error all1 (k + (if fi_ren i then 1 else 0))) as ->.
        { rewrite Hpre. rewrite (nth_error_app1 (q1 q t i ++ t1 t i)) by exact Hk'.
          destruct (fi_ren i); [|f_equal; lia].
          specialize (Hr eq_refl). destruct (q1 q t i) as [|a q'] eqn:Eq.
          - simpl in L1. destruct (fi_discard i), (fi_en i && fi_commit i); lia.
          - rewrite Nat.add_1_r. reflexivity. }
        rewrite Hm1 by (rewrite Hpre, app_length; lia).
        f_equal. f_equal. destruct (fi_ren i); [|f_equal; lia].
        specialize (Hr eq_refl). rewrite (ptr_inc_eq D HD) by assumption.
        assert (S k < D) as Hkd.
        { rewrite app_length, L1, L2 in Hk'. destruct (fi_discard i), (fi_en i), (fi_commit i); cbn [andb] in *;
            try (discriminate (Hdr eq_refl)); try specialize (Hw eq_refl); try lia.
          all: pose proof (Hdr eq_refl); discriminate || lia. }
        unfold idx. destruct (Nat.eqb_spec (d_rd s) (D - 1));
          repeat match goal with |- context [?a <? ?b] => destruct (Nat.ltb_spec a b) end; lia.
      + rewrite H8, H9. destruct (fi_discard i), (fi_en i), (fi_commit i), (fi_ren i); cbn [andb];
          try (discriminate (Hcd eq_refl)); try (discriminate (Hdr eq_refl));
          try specialize (Hw eq_refl); try specialize (Hr eq_refl);
          rewrite ?wadd_small, ?(size_inc D HD), ?(size_dec D HD) by lia; lia.
      + rewrite H9. destruct (fi_discard i), (fi_en i), (fi_commit i); try reflexivity.
        specialize (Hw eq_refl). rewrite (size_inc D HD) by lia. reflexivity.
    - intros E. rewrite E. specialize (Hr E). destruct q as [|x q']; [simpl in Hr; lia|].
      exists x, q'. split; [reflexivity|].
      assert (0 < length (x :: q') + length t) as H0 by (simpl; lia).
      specialize (H7 0 H0). unfold idx in H7. rewrite Nat.add_0_r in H7.
      destruct (Nat.ltb_spec (d_rd s) D); [|lia]. simpl in H7. congruence.
  Qed.
End Rep.

Section Law.
  Context {A : Type}.
  Variables (D : nat) (m0 : nat -> A) (d0 : A).
  Hypothesis HD : 0 < D.
  Let s0 := fd_init D m0 d0.

  Lemma fd_got_app (t u : list (fd_in A * fd_out A)) : fd_got (t ++ u) = fd_got t ++ fd_got u.
  Proof. induction t as [|c t IH]; simpl; [reflexivity|]. rewrite IH. destruct (fd_racc c); reflexivity. Qed.

  Lemma fd_inv is :
    (forall c, In c (trace (fd_step D) s0 is) -> fd_polite c /\ no_read_on_discard c) ->
    let t := trace (fd_step D) s0 is in
    exists q, DRep D (final (fd_step D) s0 is) q (in_flight t) /\ committed t = fd_got t ++ q.
  Proof.
    induction is as [|i is IH] using rev_ind.
    - intros _. exists []. split; [apply (dr_init D HD)|reflexivity].
    - rewrite trace_snoc, final_snoc. intros Hpol.
      destruct IH as [q [R E]].
      { intros c Hc. apply Hpol. apply in_or_app. auto. }
      set (s := final (fd_step D) s0 is) in *.
      set (t := trace (fd_step D) s0 is) in *.
      set (c := (i, snd (fd_step D s i))) in *.
      destruct (Hpol c) as [[P1 [P2 P3]] P4]; [apply in_or_app; right; left; reflexivity|].
      change (fi_en i = true -> fo_wwait (snd c) = false) in P1. change (fi_ren i = true -> fo_rwait (snd c) = false) in P2.
      change (fi_commit i = true -> fi_discard i = false) in P3. change (fi_discard i = true -> fi_ren i = false) in P4.
      assert (fo_wwait (snd c) = (length q + length (in_flight t) =? D)) as Ew by exact (dr_wwait D HD s q _ R).
      assert (fo_rwait (snd c) = (length q =? 0)) as Er by exact (dr_rwait D HD s q _ R).
      assert (fi_en i = true -> length q + length (in_flight t) < D) as Hen.
      { intros H. specialize (P1 H). rewrite Ew in P1. pose proof (dr_len _ _ _ _ R).
        destruct (Nat.eqb_spec (length q + length (in_flight t)) D); [discriminate|lia]. }
      assert (fi_ren i = true -> 0 < length q) as Hren.
      { intros H. specialize (P2 H). rewrite Er in P2. destruct (Nat.eqb_spec (length q) 0); [discriminate|lia]. }
      destruct (dr_step D HD s q (in_flight t) i R Hen Hren P3 P4) as [R' Hd].
      assert (fd_wacc c = fi_en i) as Ea.
      { change (fd_wacc c) with (fi_en i && negb (fo_wwait (snd c))). destruct (fi_en i); [|reflexivity]. rewrite P1 by reflexivity. reflexivity. }
      assert (fd_racc c = fi_ren i) as Eb.
      { change (fd_racc c) with (fi_ren i && negb (fo_rwait (snd c))). destruct (fi_ren i); [|reflexivity]. rewrite P2 by reflexivity. reflexivity. }
      assert (in_flight (t ++ [c]) = t1 (in_flight t) i /\
              committed (t ++ [c]) = committed t ++ (if fi_discard i then [] else if fi_en i && fi_commit i then in_flight t ++ [fi_data i] else [])) as [Ef Ec].
      { unfold in_flight, committed, t1. rewrite !fold_left_app. cbn [fold_left].
        destruct (fold_left tx_step t ([], [])) as [dn fl]. cbn [fst snd]. unfold tx_step. rewrite Ea. change (fst c) with i. destruct (fi_discard i), (fi_en i), (fi_commit i); cbn [fst snd andb]; rewrite ?app_nil_r; auto. }
      cbv zeta. fold c. rewrite Ef, Ec, E, fd_got_app. cbn [fd_got]. rewrite Eb.
      eexists. split; [exact R'|].
      unfold q1. destruct (fi_ren i) eqn:Eren.
      + destruct (Hd eq_refl) as [x [q' [-> Ex]]]. cbn [c snd]. rewrite Ex.
        assert (fi_discard i = false) as -> by (destruct (fi_discard i); [discriminate (P4 eq_refl)|reflexivity]).
        destruct (fi_en i && fi_commit i); rewrite ?app_nil_r, <- !app_assoc; reflexivity.
      + rewrite app_nil_r. destruct (fi_discard i); [rewrite app_nil_r; reflexivity|].
        destruct (fi_en i && fi_commit i); rewrite <- ?app_assoc, ?app_nil_r; reflexivity.
  Qed.

  Lemma fd_law_holds is :
    (forall c, In c (trace (fd_step D) s0 is) -> fd_polite c /\ no_read_on_discard c) ->
    fd_law D (trace (fd_step D) s0 is).
  Proof.
    intros Hpol. split.
    - destruct (fd_inv is Hpol) as [q [R E]]. exists q. split; [exact E|apply (dr_len _ _ _ _ R)].
    - intros t1 c t2 Et.
      assert (exists is1 i is2, is = is1 ++ i :: is2 /\ t1 = trace (fd_step D) s0 is1 /\
               c = (i, snd (fd_step D (final (fd_step D) s0 is1) i))) as (is1 & i & is2 & -> & -> & ->).
      { clear Hpol. revert t1 Et. generalize s0. induction is as [|i is IH]; intros s t1 Et.
        - rewrite trace_nil in Et. destruct t1; discriminate.
        - rewrite trace_cons in Et. destruct t1 as [|x t1].
          + injection Et as <- _. exists [], i, is. repeat split.
          + injection Et as <- Et. destruct (IH _ _ Et) as (is1 & j & is2 & -> & -> & ->).
            exists (i :: is1), j, is2. split; [reflexivity|].
            rewrite trace_cons, final_cons. split; reflexivity. }
      destruct (fd_inv is1) as [q [R E]].
      { intros c Hc. apply Hpol. rewrite trace_app. apply in_or_app. auto. }
      assert (readable (trace (fd_step D) s0 is1) = length q) as Eq.
      { unfold readable. rewrite E, app_length. lia. }
      rewrite Eq. cbn [snd fst].
      split; [|split].
      + rewrite (dr_wwait D HD _ _ _ R : fo_wwait (snd (fd_step D (final (fd_step D) s0 is1) i)) = _). apply Nat.eqb_eq.
      + rewrite (dr_rwait D HD _ _ _ R : fo_rwait (snd (fd_step D (final (fd_step D) s0 is1) i)) = _). apply Nat.eqb_eq.
      + change (fo_size (snd (fd_step D (final (fd_step D) s0 is1) i))) with
          (wadd (size_w D) (d_size (final (fd_step D) s0 is1)) (d_stash (final (fd_step D) s0 is1))).
        rewrite (dr_size _ _ _ _ R), (dr_stash _ _ _ _ R). apply (wadd_small D HD). apply (dr_len _ _ _ _ R).
  Qed.
End Law.
