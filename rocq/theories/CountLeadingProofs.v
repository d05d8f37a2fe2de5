From Verif Require Import Base BaseFacts CountLeadingModel.

Lemma val_acc l a : fold_left (fun a b => 2 * a + Nat.b2n b) l a = a * 2 ^ length l + val l.
Proof.
  revert a. unfold val. induction l as [|b l IH]; intros a; [simpl; lia|].
  cbn [fold_left length]. rewrite IH, (IH (2 * 0 + Nat.b2n b)). simpl Nat.pow. lia.
Qed.
Lemma val_cons b l : val (b :: l) = Nat.b2n b * 2 ^ length l + val l.
Proof. unfold val at 1. cbn [fold_left]. rewrite val_acc. lia. Qed.
Lemma val_lt l : val l < 2 ^ length l.
Proof. induction l as [|b l IH]; [unfold val; simpl; lia|]. rewrite val_cons. simpl. destruct b; simpl; lia. Qed.

(** number of leading [bit]s *)
Fixpoint lead (bit : bool) (l : list bool) : nat :=
  match l with [] => 0 | b :: l' => if Bool.eqb bit b then S (lead bit l') else 0 end.

Lemma lead_app bit l r : lead bit (l ++ r) = if all_eq bit l then length l + lead bit r else lead bit l.
Proof.
  induction l as [|b l IH]; [reflexivity|]. simpl. destruct (Bool.eqb bit b); simpl; [|reflexivity].
  rewrite IH. destruct (all_eq bit l); reflexivity.
Qed.
Lemma lead_full bit l : all_eq bit l = true -> lead bit l = length l.
Proof. induction l as [|b l IH]; [reflexivity|]. simpl. destruct (Bool.eqb bit b); simpl; [intros; f_equal; auto|discriminate]. Qed.
Lemma lead_lt bit l : all_eq bit l = false -> lead bit l < length l.
Proof. induction l as [|b l IH]; simpl; [discriminate|]. destruct (Bool.eqb bit b); simpl; [|lia]. intros H. apply IH in H. lia. Qed.

Lemma cl_len k bit d : length (cl_recurse k bit d) = S k.
Proof. revert d. induction k as [|k IH]; intros d; [reflexivity|]. cbn [cl_recurse length]. rewrite IH. reflexivity. Qed.

Lemma all_eq_app bit l r : all_eq bit (l ++ r) = all_eq bit l && all_eq bit r.
Proof. apply forallb_app. Qed.

Lemma cl_correct k bit : forall d, length d = 2 ^ S k -> all_eq bit d = false -> val (cl_recurse k bit d) = lead bit d.
Proof.
  induction k as [|k IH]; intros d Hl Hf.
  - simpl in Hl. destruct d as [|a [|b [|]]]; try discriminate. cbn in Hf |- *.
    destruct bit, a, b; simpl in *; try discriminate; reflexivity.
  - cbn [cl_recurse]. rewrite Hl. replace (2 ^ S (S k) / 2) with (2 ^ S k).
    2:{ rewrite (Nat.pow_succ_r' 2 (S k)), Nat.mul_comm, Nat.div_mul; lia. }
    set (lhs := firstn (2 ^ S k) d). set (rhs := skipn (2 ^ S k) d).
    assert (d = lhs ++ rhs) as Ed by (symmetry; apply firstn_skipn).
    assert (length lhs = 2 ^ S k) as L1 by (unfold lhs; rewrite firstn_length, Hl, (Nat.pow_succ_r' 2 (S k)); lia).
    assert (length rhs = 2 ^ S k) as L2 by (unfold rhs; rewrite skipn_length, Hl, (Nat.pow_succ_r' 2 (S k)); lia).
    rewrite Ed, lead_app. rewrite Ed, all_eq_app in Hf. rewrite val_cons, cl_len.
    destruct (all_eq bit lhs) eqn:E.
    + rewrite (IH rhs L2 Hf), L1. cbn [Nat.b2n]. lia.
    + rewrite (IH lhs L1 E). cbn [Nat.b2n]. lia.
Qed.

Lemma c23 : forall k bit (d : list bool), length d = 2 ^ S k ->
  let c := count_leading k bit d in
  (forall i, i < c -> nth_error d i = Some bit) /\
  (c < length d -> nth_error d c = Some (negb bit)) /\
  c <= length d /\ c < 2 ^ log2ceil (length d + 1).
Proof.
  intros k bit d Hl c.
  assert (c = lead bit d) as ->.
  { unfold c, count_leading. destruct (all_eq bit d) eqn:E.
    - symmetry. apply lead_full. exact E.
    - rewrite val_cons. cbn [Nat.b2n]. rewrite (cl_correct k bit d Hl E). lia. }
  assert (lead bit d <= length d) as Hle.
  { destruct (all_eq bit d) eqn:E; [rewrite lead_full by exact E; lia|apply lead_lt in E; lia]. }
  split; [|split; [|split; [exact Hle|pose proof (log2ceil_ge (length d + 1)); lia]]].
  - clear. induction d as [|b d IH]; intros i Hi; [simpl in Hi; lia|]. cbn [lead] in Hi.
    destruct (Bool.eqb_spec bit b) as [->|Hb]; [|lia]. destruct i; [reflexivity|]. apply IH. lia.
  - clear. induction d as [|b d IH]; intros Hi; [simpl in Hi; lia|]. cbn [lead] in Hi |- *.
    destruct (Bool.eqb_spec bit b) as [->|Hb]; [apply IH; simpl in Hi; lia|].
    cbn. f_equal. destruct bit, b; try reflexivity; exfalso; apply Hb; reflexivity.
Qed.
