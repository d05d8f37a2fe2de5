(** Facts about [Base]: induction principles over histories, arithmetic. *)
From Verif Require Import Base.

Ltac Zify.zify_post_hook ::= Z.div_mod_to_equations.

Lemma log2ceil_ge x : x <= 2 ^ log2ceil x.
Proof.
  unfold log2ceil. destruct (Nat.leb_spec x 1) as [H|H].
  - simpl; lia.
  - apply Nat.log2_log2_up_spec; lia.
Qed.

Lemma log2ceil_pos x : 1 <= log2ceil x.
Proof.
  unfold log2ceil. destruct (Nat.leb_spec x 1) as [H|H]; [lia|].
  apply (Nat.log2_up_le_mono 2); lia.
Qed.

Lemma pow2_pos w : 0 < 2 ^ w.
Proof. apply Nat.neq_0_lt_0, Nat.pow_nonzero; lia. Qed.

Lemma wrap_small w x : x < 2 ^ w -> wrap w x = x.
Proof. intros; apply Nat.mod_small; assumption. Qed.

Lemma wrap_lt w x : wrap w x < 2 ^ w.
Proof. apply Nat.mod_upper_bound. pose proof (pow2_pos w). lia. Qed.

Lemma winc_small w x : x + 1 < 2 ^ w -> winc w x = x + 1.
Proof. intros; apply Nat.mod_small; assumption. Qed.

Lemma wdec_pos w x : 0 < x -> x < 2 ^ w -> wdec w x = x - 1.
Proof.
  intros Hx Hw. unfold wdec, wrap.
  replace (x + 2 ^ w - 1) with ((x - 1) + 1 * 2 ^ w) by lia.
  rewrite Nat.mod_add by lia. apply Nat.mod_small; lia.
Qed.

Lemma upd_eq {A} (m : nat -> A) i v : upd m i v i = v.
Proof. unfold upd. rewrite Nat.eqb_refl. reflexivity. Qed.

Lemma upd_neq {A} (m : nat -> A) i j v : j <> i -> upd m i v j = m j.
Proof. unfold upd. intros H. destruct (Nat.eqb_spec j i); congruence. Qed.

Section RunFacts.
  Context {S I O : Type} (step : S -> I -> S * O).

  Lemma run_cons s i is :
    run step s (i :: is) =
      (fst (run step (fst (step s i)) is),
       snd (step s i) :: snd (run step (fst (step s i)) is)).
  Proof.
    simpl. destruct (step s i) as [s1 o]; simpl.
    destruct (run step s1 is); reflexivity.
  Qed.

  Lemma final_nil s : final step s [] = s.
  Proof. reflexivity. Qed.

  Lemma outs_nil s : outs step s [] = [].
  Proof. reflexivity. Qed.

  Lemma trace_nil s : trace step s [] = [].
  Proof. reflexivity. Qed.

  Lemma final_cons s i is : final step s (i :: is) = final step (fst (step s i)) is.
  Proof. unfold final. rewrite run_cons. reflexivity. Qed.

  Lemma outs_cons s i is :
    outs step s (i :: is) = snd (step s i) :: outs step (fst (step s i)) is.
  Proof. unfold outs. rewrite run_cons. reflexivity. Qed.

  Lemma trace_cons s i is :
    trace step s (i :: is) = (i, snd (step s i)) :: trace step (fst (step s i)) is.
  Proof. unfold trace. rewrite outs_cons. reflexivity. Qed.

  Lemma outs_length s is : length (outs step s is) = length is.
  Proof.
    revert s; induction is as [|i is IH]; intros s; [reflexivity|].
    rewrite outs_cons; simpl. rewrite IH. reflexivity.
  Qed.

  Lemma trace_length s is : length (trace step s is) = length is.
  Proof. unfold trace. rewrite combine_length, outs_length. lia. Qed.

  Lemma final_app s is js : final step s (is ++ js) = final step (final step s is) js.
  Proof.
    revert s; induction is as [|i is IH]; intros s; [reflexivity|].
    simpl app. rewrite !final_cons. apply IH.
  Qed.

  Lemma outs_app s is js :
    outs step s (is ++ js) = outs step s is ++ outs step (final step s is) js.
  Proof.
    revert s; induction is as [|i is IH]; intros s; [reflexivity|].
    simpl app. rewrite !outs_cons, final_cons, IH. reflexivity.
  Qed.

  Lemma trace_app s is js :
    trace step s (is ++ js) = trace step s is ++ trace step (final step s is) js.
  Proof.
    revert s; induction is as [|i is IH]; intros s; [reflexivity|].
    simpl app. rewrite !trace_cons, final_cons, IH. reflexivity.
  Qed.

  Lemma final_snoc s is i : final step s (is ++ [i]) = fst (step (final step s is) i).
  Proof. rewrite final_app, final_cons, final_nil. reflexivity. Qed.

  Lemma trace_snoc s is i :
    trace step s (is ++ [i]) = trace step s is ++ [(i, snd (step (final step s is) i))].
  Proof. rewrite trace_app, trace_cons, trace_nil. reflexivity. Qed.

  Lemma outs_snoc s is i :
    outs step s (is ++ [i]) = outs step s is ++ [snd (step (final step s is) i)].
  Proof. rewrite outs_app, outs_cons, outs_nil. reflexivity. Qed.

  (** Induction over histories: a relation between the reached state and the
      observed trace holds after every history. *)
  Lemma trace_ind (P : S -> list (I * O) -> Prop) (s0 : S) :
    P s0 [] ->
    (forall s tr i, P s tr -> P (fst (step s i)) (tr ++ [(i, snd (step s i))])) ->
    forall is, P (final step s0 is) (trace step s0 is).
  Proof.
    intros H0 Hs is. induction is as [|i is IH] using rev_ind.
    - exact H0.
    - rewrite final_snoc, trace_snoc. apply Hs, IH.
  Qed.

  (** Same with an assumption on the environment, checked on every cycle. *)
  Lemma trace_ind_env (E : S -> I -> Prop) (P : S -> list (I * O) -> Prop) (s0 : S) :
    P s0 [] ->
    (forall s tr i, P s tr -> E s i -> P (fst (step s i)) (tr ++ [(i, snd (step s i))])) ->
    forall is,
      (forall k i, nth_error is k = Some i -> E (final step s0 (firstn k is)) i) ->
      P (final step s0 is) (trace step s0 is).
  Proof.
    intros H0 Hs is. induction is as [|i is IH] using rev_ind; intros HE.
    - exact H0.
    - rewrite final_snoc, trace_snoc. apply Hs.
      + apply IH. intros k j Hk.
        assert (k < length is) as Hlt by (apply nth_error_Some; congruence).
        specialize (HE k j). rewrite nth_error_app1 in HE by lia.
        rewrite firstn_app in HE. replace (k - length is) with 0 in HE by lia.
        rewrite app_nil_r in HE. auto.
      + specialize (HE (length is) i).
        rewrite nth_error_app2, Nat.sub_diag in HE by lia.
        rewrite firstn_app, firstn_all, Nat.sub_diag, app_nil_r in HE.
        auto.
  Qed.
End RunFacts.
