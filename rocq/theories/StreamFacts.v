From Verif Require Import Base BaseFacts StreamSpec.

Lemma accepted_app {A B} (t u : list (hs_cycle A B)) : accepted (t ++ u) = accepted t ++ accepted u.
Proof.
  induction t as [|c t IH]; simpl; [reflexivity|].
  rewrite IH. destruct (in_vld c && in_rd c); reflexivity.
Qed.

Lemma delivered_app {A B} (t u : list (hs_cycle A B)) : delivered (t ++ u) = delivered t ++ delivered u.
Proof.
  induction t as [|c t IH]; simpl; [reflexivity|].
  rewrite IH. destruct (out_vld c && out_rd c); reflexivity.
Qed.

Lemma accepted_snoc {A B} (t : list (hs_cycle A B)) c :
  accepted (t ++ [c]) = accepted t ++ (if in_vld c && in_rd c then [in_data c] else []).
Proof. rewrite accepted_app. reflexivity. Qed.

Lemma delivered_snoc {A B} (t : list (hs_cycle A B)) c :
  delivered (t ++ [c]) = delivered t ++ (if out_vld c && out_rd c then [out_data c] else []).
Proof. rewrite delivered_app. reflexivity. Qed.

Lemma out_stable_snoc {A B} (t : list (hs_cycle A B)) c :
  out_stable t ->
  (forall t' c0, t = t' ++ [c0] -> out_vld c0 = true -> out_rd c0 = false ->
      out_vld c = true /\ out_data c = out_data c0) ->
  out_stable (t ++ [c]).
Proof.
  induction t as [|a t IH]; intros Hs Hc; [exact I|].
  destruct t as [|b t].
  - simpl. split; [|exact I]. apply (Hc [] a). reflexivity.
  - simpl in Hs. destruct Hs as [H1 H2]. simpl. split; [exact H1|].
    apply IH; [exact H2|]. intros t' c0 E. apply (Hc (a :: t')). simpl. congruence.
Qed.

Lemma accepted_cons {A B} (c : hs_cycle A B) t :
  accepted (c :: t) = (if in_vld c && in_rd c then [in_data c] else []) ++ accepted t.
Proof. simpl. destruct (in_vld c && in_rd c); reflexivity. Qed.

Lemma delivered_cons {A B} (c : hs_cycle A B) t :
  delivered (c :: t) = (if out_vld c && out_rd c then [out_data c] else []) ++ delivered t.
Proof. simpl. destruct (out_vld c && out_rd c); reflexivity. Qed.

(** Words transferred in one cycle. *)
Definition acc1 {A B} (c : hs_cycle A B) : list A := if in_vld c && in_rd c then [in_data c] else [].
Definition del1 {A B} (c : hs_cycle A B) : list B := if out_vld c && out_rd c then [out_data c] else [].


(** A machine whose content [cont] obeys the one-cycle queue equation is a queue. *)
Section QueueRun.
  Context {S I O A : Type} (step : S -> I -> S * O) (obs : I * O -> hs_cycle A A).
  Variables (P : S -> Prop) (cont : S -> list A).
  Hypothesis Hstep : forall s i, P s ->
    P (fst (step s i)) /\
    cont s ++ acc1 (obs (i, snd (step s i))) = del1 (obs (i, snd (step s i))) ++ cont (fst (step s i)).

  Lemma queue_run s is : P s ->
    P (final step s is) /\
    cont s ++ accepted (map obs (trace step s is)) =
      delivered (map obs (trace step s is)) ++ cont (final step s is).
  Proof.
    revert s. induction is as [|i is IH]; intros s HP.
    - split; [exact HP|]. simpl. rewrite app_nil_r. reflexivity.
    - destruct (Hstep s i HP) as [HP' E]. destruct (IH _ HP') as [HPf E'].
      rewrite trace_cons, final_cons. split; [exact HPf|].
      rewrite map_cons, accepted_cons, delivered_cons.
      fold (acc1 (obs (i, snd (step s i)))). fold (del1 (obs (i, snd (step s i)))).
      rewrite app_assoc, E, <- !app_assoc, E'. reflexivity.
  Qed.

  (** stability of the offered word *)
  Hypothesis Hstab : forall s i j, P s ->
    out_vld (obs (i, snd (step s i))) = true -> out_rd (obs (i, snd (step s i))) = false ->
    let o' := snd (step (fst (step s i)) j) in
    out_vld (obs (j, o')) = true /\ out_data (obs (j, o')) = out_data (obs (i, snd (step s i))).

  Lemma stable_run s is : P s -> out_stable (map obs (trace step s is)).
  Proof.
    revert s. induction is as [|i is IH]; intros s HP; [exact Logic.I|].
    destruct (Hstep s i HP) as [HP' _]. specialize (IH _ HP').
    rewrite trace_cons, map_cons.
    destruct is as [|j is]; [exact Logic.I|]. rewrite trace_cons, map_cons in *.
    split; [|exact IH]. intros. apply Hstab; assumption.
  Qed.
End QueueRun.

(** The same for components which convert words: an input word stands for the items [fa a],
    an output word for the items [fb b]; [E] is a condition on the environment in each cycle. *)
Section ConvRun.
  Context {S I O A B X : Type} (step : S -> I -> S * O) (obs : I * O -> hs_cycle A B).
  Variables (fa : A -> list X) (fb : B -> list X).
  Variables (P : S -> Prop) (E : I * O -> Prop) (cont : S -> list X).
  Hypothesis Hstep : forall s i, P s -> E (i, snd (step s i)) ->
    P (fst (step s i)) /\
    cont s ++ flat_map fa (acc1 (obs (i, snd (step s i)))) =
      flat_map fb (del1 (obs (i, snd (step s i)))) ++ cont (fst (step s i)).

  Lemma conv_run s is : P s -> (forall c, In c (trace step s is) -> E c) ->
    P (final step s is) /\
    cont s ++ flat_map fa (accepted (map obs (trace step s is))) =
      flat_map fb (delivered (map obs (trace step s is))) ++ cont (final step s is).
  Proof.
    revert s. induction is as [|i is IH]; intros s HP HE.
    - split; [exact HP|]. simpl. rewrite app_nil_r. reflexivity.
    - rewrite trace_cons in HE.
      destruct (Hstep s i HP (HE _ (or_introl eq_refl))) as [HP' Eq].
      destruct (IH _ HP') as [HPf Eq']; [intros c Hc; apply HE; right; exact Hc|].
      rewrite trace_cons, final_cons. split; [exact HPf|].
      rewrite map_cons, accepted_cons, delivered_cons.
      fold (acc1 (obs (i, snd (step s i)))). fold (del1 (obs (i, snd (step s i)))).
      rewrite !flat_map_app, app_assoc, Eq, <- !app_assoc, Eq'. reflexivity.
  Qed.
End ConvRun.
