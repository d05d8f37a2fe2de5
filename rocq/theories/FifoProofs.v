From Verif Require Import Base BaseFacts StreamSpec StreamFacts FifoModel FifoSpec.

Section Rep.
  Context {A : Type}.
  Variable D : nat.
  Hypothesis HD : 0 < D.

  Definition idx (r k : nat) : nat := if r + k <? D then r + k else r + k - D.

  (** [s] represents the queue [q]. *)
  Record Rep (s : fifo_st A) (q : list A) : Prop := {
    rep_w : wptr s < D;
    rep_r : rptr s < D;
    rep_len : length q <= D;
    rep_pos : if looped s then wptr s + D = rptr s + length q else wptr s = rptr s + length q;
    rep_mem : forall k, k < length q -> nth_error q k = Some (mem s (idx (rptr s) k));
    rep_size : size_r s = length q;
    rep_space : space_r s = D - length q }.

  Lemma max_ptr_eq : max_ptr D = D - 1. Proof. reflexivity. Qed.

  Lemma ptr_inc_eq p : p < D -> ptr_inc D p = if p =? D - 1 then 0 else p + 1.
  Proof.
    intros Hp. unfold ptr_inc, max_ptr, ptr_w.
    destruct (Nat.eqb_spec p (D - 1)); [reflexivity|].
    apply winc_small. pose proof (log2ceil_ge D). lia.
  Qed.

  Lemma size_inc n : n < D -> winc (size_w D) n = n + 1.
  Proof. intros. apply winc_small. unfold size_w. pose proof (log2ceil_ge (D + 1)). lia. Qed.

  Lemma size_dec n : 0 < n -> n <= D -> wdec (size_w D) n = n - 1.
  Proof. intros. apply wdec_pos; [lia|]. unfold size_w. pose proof (log2ceil_ge (D + 1)). lia. Qed.

  Lemma rep_wwait s q : Rep s q -> f_wwait s = (length q =? D).
  Proof.
    intros [Hw Hr Hl Hp _ _ _]. unfold f_wwait.
    destruct (looped s), (Nat.eqb_spec (wptr s) (rptr s)), (Nat.eqb_spec (length q) D); simpl; lia.
  Qed.

  Lemma rep_rwait s q : Rep s q -> f_rwait s = (length q =? 0).
  Proof.
    intros [Hw Hr Hl Hp _ _ _]. unfold f_rwait.
    destruct (looped s), (Nat.eqb_spec (wptr s) (rptr s)), (Nat.eqb_spec (length q) 0); simpl; lia.
  Qed.

  Lemma f_write_wait (s : fifo_st A) en : f_write s en = en && negb (f_wwait s).
  Proof. unfold f_write, f_wwait. destruct en, (looped s), (wptr s =? rptr s); reflexivity. Qed.

  Lemma f_read_wait (s : fifo_st A) en : f_read s en = en && negb (f_rwait s).
  Proof. unfold f_read, f_rwait. destruct en, (looped s), (wptr s =? rptr s); reflexivity. Qed.

  Lemma rep_init init m0 d0 :
    length init < D \/ (length init = D /\ D = 1) -> Rep (fifo_init D init m0 d0) init.
  Proof.
    intros H. unfold fifo_init, max_ptr.
    constructor; cbn [wptr rptr looped mem size_r space_r]; try lia.
    - destruct (Nat.leb_spec (length init) (D - 1)); simpl; lia.
    - intros k Hk. unfold idx, init_mem. destruct (Nat.ltb_spec (0 + k) D); [|lia].
      simpl. apply nth_error_nth'. assumption.
  Qed.

  Definition q_next (q : list A) (wr rd : bool) (d : A) : list A :=
    (if rd then tl q else q) ++ (if wr then [d] else []).

  Lemma nth_error_tl (q : list A) k : nth_error (tl q) k = nth_error q (S k).
  Proof. destruct q; [destruct k; reflexivity|reflexivity]. Qed.

  Lemma tl_length (q : list A) : length (tl q) = length q - 1.
  Proof. destruct q; simpl; lia. Qed.

  Lemma rep_step s q i :
    Rep s q ->
    (w_en i = true -> length q < D) ->
    let wr := w_en i in
    let rd := r_en i && negb (length q =? 0) in
    Rep (fst (fifo_step D s i)) (q_next q wr rd (w_data i)) /\
    (rd = true -> exists x q', q = x :: q' /\ o_rdata (snd (fifo_step D s i)) = x).
  Proof.
    intros R Hen wr rd. pose proof R as R'. destruct R' as [Hw Hr Hl Hp Hm Hs Hsp].
    assert (f_write s (w_en i) = wr) as Ewr.
    { rewrite f_write_wait, (rep_wwait _ _ R). subst wr.
      destruct (w_en i); [|reflexivity]. specialize (Hen eq_refl).
      destruct (Nat.eqb_spec (length q) D); simpl; lia. }
    assert (f_read s (r_en i) = rd) as Erd.
    { rewrite f_read_wait, (rep_rwait _ _ R). reflexivity. }
    unfold fifo_step. rewrite Ewr, Erd. cbn [fst snd o_rdata].
    assert (rd = true -> 0 < length q) as Hrd.
    { subst rd. destruct (r_en i), (Nat.eqb_spec (length q) 0); simpl; lia. }
    assert (length (q_next q wr rd (w_data i)) =
            length q - (if rd then 1 else 0) + (if wr then 1 else 0)) as HL.
    { unfold q_next. rewrite app_length. destruct rd, wr; simpl; rewrite ?tl_length; lia. }
    assert (r_en i = true -> rd = false -> length q = 0) as Hempty.
    { subst rd. intros -> H2. destruct (Nat.eqb_spec (length q) 0); [assumption|discriminate]. }
    assert (rd = true -> r_en i = true) as Hren.
    { subst rd. destruct (r_en i); [reflexivity|discriminate]. }
    assert (w_en i = wr) as Ewen by reflexivity.
    rewrite Ewen in *. clearbody wr rd.
    split.
    - constructor; cbn [wptr rptr looped mem size_r space_r].
      + destruct wr; [rewrite ptr_inc_eq by assumption|assumption].
        destruct (Nat.eqb_spec (wptr s) (D - 1)); lia.
      + destruct rd; [rewrite ptr_inc_eq by assumption|assumption].
        destruct (Nat.eqb_spec (rptr s) (D - 1)); lia.
      + rewrite HL. destruct wr; destruct rd; try specialize (Hrd eq_refl); try specialize (Hen eq_refl); lia.
      + rewrite HL. unfold max_ptr.
        destruct (r_en i) eqn:Er; destruct wr; destruct rd;
          try specialize (Hren eq_refl); try discriminate;
          try specialize (Hrd eq_refl); try specialize (Hen eq_refl);
          try specialize (Hempty eq_refl eq_refl);
          rewrite ?ptr_inc_eq by assumption;
          destruct (Nat.eqb_spec (wptr s) (D - 1)); destruct (Nat.eqb_spec (rptr s) (D - 1));
          cbn [andb]; destruct (looped s) eqn:El; lia.
      + intros k Hk. rewrite HL in Hk.
        assert (forall j, j < length q ->
                  (if wr then upd (mem s) (wptr s) (w_data i) else mem s) (idx (rptr s) j)
                  = mem s (idx (rptr s) j)) as Hold.
        { intros j Hj. destruct wr; [|reflexivity]. specialize (Hen eq_refl).
          apply upd_neq. unfold idx.
          destruct (looped s), (Nat.ltb_spec (rptr s + j) D); lia. }
        assert (forall j, rd = true -> idx (ptr_inc D (rptr s)) j = idx (rptr s) (S j)
                          \/ D <= S j) as Hshift.
        { intros j _. rewrite ptr_inc_eq by assumption. unfold idx.
          destruct (Nat.eqb_spec (rptr s) (D - 1));
            repeat match goal with |- context [?a <? ?b] => destruct (Nat.ltb_spec a b) end; lia. }
        unfold q_next.
        assert (exists j, j = k + (if rd then 1 else 0) /\
             idx (if rd then ptr_inc D (rptr s) else rptr s) k = idx (rptr s) j) as [j [Ej Eidx]].
        { exists (k + (if rd then 1 else 0)). split; [reflexivity|].
          destruct rd.
          - destruct (Hshift k eq_refl) as [E|E].
            + rewrite E. f_equal. lia.
            + (* k = D - 1 and a read happened: impossible *)
              specialize (Hrd eq_refl).
              destruct wr; [specialize (Hen eq_refl); lia|lia].
          - f_equal. lia. }
        rewrite Eidx.
        destruct (Nat.ltb_spec j (length q)) as [Hj|Hj].
        * rewrite Hold by assumption.
          rewrite nth_error_app1 by (destruct rd; rewrite ?tl_length; lia).
          rewrite <- Hm by assumption. destruct rd.
          -- rewrite nth_error_tl. f_equal. lia.
          -- f_equal. lia.
        * (* the freshly written word *)
          destruct wr; [|destruct rd; try specialize (Hrd eq_refl); lia].
          assert (j = length q) as -> by (destruct rd; try specialize (Hrd eq_refl); lia).
          assert (idx (rptr s) (length q) = wptr s) as Ew.
          { specialize (Hen eq_refl). unfold idx.
            destruct (looped s), (Nat.ltb_spec (rptr s + length q) D); lia. }
          rewrite Ew, upd_eq.
          assert (length (if rd then tl q else q) = k) as El
            by (destruct rd; rewrite ?tl_length; lia).
          rewrite nth_error_app2 by lia. rewrite El, Nat.sub_diag. reflexivity.
      + rewrite HL, Hs. destruct rd, wr; try specialize (Hrd eq_refl); try specialize (Hen eq_refl);
          rewrite ?size_inc, ?size_dec by lia; lia.
      + rewrite HL, Hsp. destruct rd, wr; try specialize (Hrd eq_refl); try specialize (Hen eq_refl);
          rewrite ?size_inc, ?size_dec by lia; lia.
    - intros E. rewrite E. specialize (Hrd E). destruct q as [|x q']; [simpl in Hrd; lia|].
      exists x, q'. split; [reflexivity|].
      specialize (Hm 0 Hrd). unfold idx in Hm. rewrite Nat.add_0_r in Hm.
      destruct (Nat.ltb_spec (rptr s) D); [|lia]. simpl in Hm. congruence.
  Qed.
End Rep.

Lemma written_app {A} (t u : list (fifo_in A * fifo_out A)) : written (t ++ u) = written t ++ written u.
Proof. induction t as [|c t IH]; simpl; [reflexivity|]. rewrite IH. destruct (wr_acc c); reflexivity. Qed.
Lemma got_app {A} (t u : list (fifo_in A * fifo_out A)) : got (t ++ u) = got t ++ got u.
Proof. induction t as [|c t IH]; simpl; [reflexivity|]. rewrite IH. destruct (rd_acc c); reflexivity. Qed.

Section FifoLaw.
  Context {A : Type}.
  Variables (D : nat) (init : list A) (m0 : nat -> A) (d0 : A).
  Hypothesis HD : 0 < D.
  Hypothesis Hinit : length init < D \/ (length init = D /\ D = 1).
  Let s0 := fifo_init D init m0 d0.

  Lemma fifo_inv is :
    polite (trace (fifo_step D) s0 is) ->
    exists q, Rep D (final (fifo_step D) s0 is) q /\
      init ++ written (trace (fifo_step D) s0 is) = got (trace (fifo_step D) s0 is) ++ q.
  Proof.
    induction is as [|i is IH] using rev_ind.
    - intros _. exists init. split; [apply rep_init; assumption|]. simpl. apply app_nil_r.
    - rewrite trace_snoc, final_snoc. intros Hpol.
      destruct IH as [q [R E]].
      { intros c Hc. apply Hpol. apply in_or_app. auto. }
      set (s := final (fifo_step D) s0 is) in *.
      set (t := trace (fifo_step D) s0 is) in *.
      assert (w_en i = true -> f_wwait s = false) as Hp1.
      { specialize (Hpol (i, snd (fifo_step D s i))).
        apply Hpol. apply in_or_app. right. left. reflexivity. }
      rewrite (rep_wwait _ HD _ _ R) in Hp1.
      assert (w_en i = true -> length q < D) as Hen.
      { intros Hw. specialize (Hp1 Hw). pose proof (rep_len _ _ _ R).
        destruct (Nat.eqb_spec (length q) D); [discriminate|lia]. }
      destruct (rep_step D HD s q i R Hen) as [R' Hd].
      eexists. split; [exact R'|].
      rewrite written_app, got_app. cbn [written got].
      assert (wr_acc (i, snd (fifo_step D s i)) = w_en i) as Ew.
      { unfold wr_acc. simpl. rewrite (rep_wwait _ HD _ _ R).
        destruct (w_en i); [|reflexivity]. specialize (Hen eq_refl).
        destruct (Nat.eqb_spec (length q) D); [lia|reflexivity]. }
      assert (rd_acc (i, snd (fifo_step D s i)) = r_en i && negb (length q =? 0)) as Er.
      { unfold rd_acc. simpl. rewrite (rep_rwait _ HD _ _ R). reflexivity. }
      rewrite Ew, Er. cbn [fst snd].
      rewrite app_assoc, E. unfold q_next.
      destruct (r_en i && negb (length q =? 0)) eqn:Erd.
      + destruct (Hd eq_refl) as [x [q' [-> Ex]]]. rewrite Ex. simpl tl.
        rewrite <- !app_assoc. simpl. destruct (w_en i); reflexivity.
      + rewrite <- !app_assoc. destruct (w_en i); reflexivity.
  Qed.

  Lemma fifo_law_holds is :
    polite (trace (fifo_step D) s0 is) -> fifo_law D init (trace (fifo_step D) s0 is).
  Proof.
    intros Hpol. split.
    - destruct (fifo_inv is Hpol) as [q [R E]]. exists q. split; [exact E|apply (rep_len _ _ _ R)].
    - intros t1 c t2 Et.
      assert (exists is1 i is2, is = is1 ++ i :: is2 /\ t1 = trace (fifo_step D) s0 is1 /\
               c = (i, snd (fifo_step D (final (fifo_step D) s0 is1) i))) as (is1 & i & is2 & -> & -> & ->).
      { clear Hpol. revert t1 Et. generalize s0. induction is as [|i is IH]; intros s t1 Et.
        - rewrite trace_nil in Et. destruct t1; discriminate.
        - rewrite trace_cons in Et. destruct t1 as [|x t1].
          + injection Et as <- _. exists [], i, is. repeat split.
          + injection Et as <- Et. destruct (IH _ _ Et) as (is1 & j & is2 & -> & -> & ->).
            exists (i :: is1), j, is2. split; [reflexivity|].
            rewrite trace_cons, final_cons. split; reflexivity. }
      assert (polite (trace (fifo_step D) s0 is1)) as Hp1.
      { intros c Hc. apply Hpol. rewrite trace_app. apply in_or_app. auto. }
      destruct (fifo_inv is1 Hp1) as [q [R E]].
      set (s := final (fifo_step D) s0 is1) in *.
      assert (in_fifo init (trace (fifo_step D) s0 is1) = length q) as Eq.
      { unfold in_fifo. apply (f_equal (@length A)) in E. rewrite !app_length in E. lia. }
      rewrite Eq. cbn [snd fifo_step w_wait r_wait o_size o_space].
      rewrite (rep_wwait _ HD _ _ R), (rep_rwait _ HD _ _ R), (rep_size _ _ _ R), (rep_space _ _ _ R).
      rewrite !Nat.eqb_eq. tauto.
  Qed.
End FifoLaw.
