From Verif Require Import Base BaseFacts SfpModel SfpSpec.

Lemma str_eqb_spec a b : str_eqb a b = true <-> a = b.
Proof. unfold str_eqb. destruct (list_eq_dec Nat.eq_dec a b); split; congruence. Qed.
Lemma str_eqb_neq a b : a <> b -> str_eqb a b = false.
Proof. intros H. destruct (str_eqb a b) eqn:E; [apply str_eqb_spec in E; congruence|reflexivity]. Qed.

Lemma split_br_plain s : forall cur r, plain s -> split_br cur (s ++ r) = split_br (cur ++ s) r.
Proof.
  induction s as [|c s IH]; intros cur r [H1 H2]; cbn [app split_br]; [rewrite app_nil_r; reflexivity|].
  assert (c <> LB /\ c <> RB) as [N1 N2] by (split; intros ->; [apply H1|apply H2]; left; reflexivity).
  rewrite (proj2 (Nat.eqb_neq _ _) N1), (proj2 (Nat.eqb_neq _ _) N2). cbn [orb].
  rewrite IH by (split; intro X; [apply H1|apply H2]; right; exact X). rewrite <- app_assoc. reflexivity.
Qed.
Lemma split_on_plain c s : forall cur r, ~ In c s -> split_on c cur (s ++ r) = split_on c (cur ++ s) r.
Proof.
  induction s as [|x s IH]; intros cur r H; cbn [app split_on]; [rewrite app_nil_r; reflexivity|].
  rewrite (proj2 (Nat.eqb_neq x c)) by (intros ->; apply H; left; reflexivity).
  rewrite IH by (intro X; apply H; right; exact X). rewrite <- app_assoc. reflexivity.
Qed.

Lemma py_int_val s : py_int s = dec_val s.
Proof.
  unfold py_int. assert (H : forall a, fold_left (fun a c => 10 * a + (c - 48)) s a = a * 10 ^ length s + dec_val s).
  { induction s as [|c s IH]; intros a; cbn [fold_left length dec_val]; [rewrite Nat.pow_0_r; lia|].
    rewrite IH, Nat.pow_succ_r'. ring. }
  rewrite H. lia.
Qed.
Lemma digit_iff c : is_digit c = true <-> 48 <= c <= 57.
Proof. unfold is_digit. lia. Qed.
Lemma all_digits_spec s : s <> [] -> (all_digits s = true <-> digits_str s).
Proof.
  intros H. unfold all_digits, digits_str. destruct s as [|c s]; [congruence|]. rewrite forallb_forall, Forall_forall.
  split; intros X y Hy; [apply digit_iff|apply digit_iff]; exact (X y Hy).
Qed.

Lemma lead_spec ds t : digits_str ds -> is_digit t = false -> lead (ds ++ [t]) = length ds.
Proof.
  intros H Ht. induction ds as [|d ds IH]; [reflexivity|]. cbn [app length].
  pose proof (Forall_inv H) as Hd. cbn beta in Hd. apply Forall_inv_tail in H. specialize (IH H).
  cbn [lead]. destruct (ds ++ [t]) eqn:E; [destruct ds; discriminate|].
  rewrite (proj2 (digit_iff d) Hd). rewrite <- E, <- IH, E. reflexivity.
Qed.

Lemma type_cases t : In t [100; 98; 111; 120; 88; 115] -> type_ok [t] = Some t /\ is_digit t = false /\ t <> COLON /\ t <> LB /\ t <> RB.
Proof. intros H. unfold COLON, LB, RB. repeat (destruct H as [<-|H]; [repeat split; try reflexivity; lia|]). destruct H. Qed.
Lemma not_in_digits c ds : digits_str ds -> is_digit c = false -> ~ In c ds.
Proof. intros H Hc Hi. apply (proj1 (Forall_forall _ _) H) in Hi. apply digit_iff in Hi. congruence. Qed.

Definition body (g : group) : str := g_name g ++ [COLON] ++ g_digits g ++ [g_type g].
Lemma parse_body g : group_ok g -> exists p, parse_group (body g) = Some p /\ group_piece g p.
Proof.
  intros (Hp & Hc & Hne & Hd & Ht). destruct (type_cases _ Ht) as (E1 & E2 & E3 & _).
  unfold parse_group, body. rewrite split_on_plain by exact Hc. cbn [app split_on]. rewrite Nat.eqb_refl.
  rewrite split_on_plain by (apply not_in_digits; [exact Hd|reflexivity]). cbn [split_on app].
  rewrite (proj2 (Nat.eqb_neq _ _) E3). cbn [app].
  destruct (g_digits g ++ [g_type g]) as [|z zs] eqn:Ez; [destruct (g_digits g); discriminate|]. rewrite <- Ez. clear z zs Ez.
  rewrite (lead_spec _ _ Hd E2). rewrite skipn_app, skipn_all, Nat.sub_diag. cbn [skipn app]. rewrite E1.
  eexists. split; [reflexivity|]. eexists _, _. split; [reflexivity|]. split.
  - destruct (all_digits (g_name g)) eqn:Ea.
    + left. split; [apply all_digits_spec; assumption|]. f_equal. apply py_int_val.
    + right. split; [|reflexivity]. intros X. apply all_digits_spec in X; [congruence|exact Hne].
  - rewrite firstn_app, firstn_all, Nat.sub_diag. cbn [firstn]. rewrite app_nil_r. destruct (g_digits g); [reflexivity|]. cbn [length Nat.ltb Nat.leb]. f_equal. apply py_int_val.
Qed.

Lemma body_plain g : group_ok g -> plain (body g) /\ body g <> [].
Proof.
  intros (Hp & Hc & Hne & Hd & Ht). destruct (type_cases _ Ht) as (E1 & E2 & E3 & E4 & E5).
  split; [|unfold body; destruct (g_name g); discriminate].
  assert (X : forall c, (c = LB \/ c = RB) -> ~ In c (g_name g) -> ~ In c (body g)).
  { intros c Hcc Hn Hi. unfold body in Hi. repeat (apply in_app_or in Hi; destruct Hi as [Hi|Hi]).
    - exact (Hn Hi).
    - destruct Hi as [Hi|[]]. unfold COLON, LB, RB in *. lia.
    - apply (not_in_digits c _ Hd); [|exact Hi]. destruct Hcc; subst c; reflexivity.
    - destruct Hi as [Hi|[]]. destruct Hcc; congruence. }
  split; apply X; try (left; reflexivity); try (right; reflexivity); apply Hp.
Qed.

Lemma plain_neq s c : plain s -> c = LB \/ c = RB -> s <> [c].
Proof. intros [H1 H2] [-> | ->] ->; [apply H1|apply H2]; left; reflexivity. Qed.

Lemma c152 l : forall t0, plain t0 -> Forall (fun gt => group_ok (fst gt) /\ plain (snd gt)) l ->
  exists ps, parse_format (render t0 l) = Some ps /\ means t0 l ps.
Proof.
  unfold parse_format. induction l as [|[g t] l IH]; intros t0 H0 HF; cbn [render].
  - exists [PText t0]. split; [|constructor]. rewrite <- (app_nil_r t0) at 1. rewrite split_br_plain by exact H0. cbn [app split_br parse_tokens negb].
    rewrite !str_eqb_neq by (apply plain_neq; auto). reflexivity.
  - pose proof (Forall_inv HF) as [Hg Ht]. cbn [fst snd] in *. apply Forall_inv_tail in HF.
    destruct (IH t Ht HF) as (ps & Ep & Em). destruct (parse_body g Hg) as (p & Eb & Hp). destruct (body_plain g Hg) as [Hpl Hne].
    exists (PText t0 :: p :: ps). split; [|constructor; assumption].
    assert (Er : t0 ++ render_group g ++ render t l = t0 ++ LB :: body g ++ RB :: render t l).
    { unfold render_group, body. rewrite <- !app_assoc. reflexivity. }
    rewrite Er, split_br_plain by exact H0. cbn [app split_br]. rewrite Nat.eqb_refl. cbn [orb].
    rewrite split_br_plain by exact Hpl. cbn [app split_br]. rewrite Nat.eqb_refl, orb_true_r.
    cbn [parse_tokens negb]. rewrite !(str_eqb_neq t0) by (apply plain_neq; auto). rewrite (proj2 (str_eqb_spec [LB] [LB]) eq_refl).
    rewrite !(str_eqb_neq (body g)) by (apply plain_neq; auto). rewrite (proj2 (str_eqb_spec [RB] [RB]) eq_refl).
    rewrite (str_eqb_neq [RB] [LB]) by discriminate.
    destruct (body g) as [|b bs] eqn:Ebd; [congruence|]. rewrite Eb, Ep. reflexivity.
Qed.

(** doubled brackets *)
Lemma c152_escape s : In LB s -> Forall (fun c => c = LB \/ plain [c]) s -> parse_format (escape s) = None.
Proof.
  intros Hi HF. unfold parse_format.
  assert (H : forall s cur, In LB s -> Forall (fun c => c = LB \/ plain [c]) s -> plain cur -> parse_tokens false [] (split_br cur (escape s)) = None).
  { clear. induction s as [|c s IH]; intros cur Hi HF Hcur; [destruct Hi|]. unfold escape. cbn [flat_map]. fold (escape s).
    pose proof (Forall_inv HF) as Hc. apply Forall_inv_tail in HF. destruct (Nat.eq_dec c LB) as [->|Hn].
    - rewrite Nat.eqb_refl. cbn [orb app split_br]. rewrite Nat.eqb_refl. cbn [orb app]. cbn [parse_tokens negb].
      rewrite !(str_eqb_neq cur) by (apply plain_neq; auto). rewrite (proj2 (str_eqb_spec [LB] [LB]) eq_refl).
      rewrite !(str_eqb_neq []) by discriminate. reflexivity.
    - destruct Hc as [Hc|Hc]; [congruence|]. assert (c <> RB) by (intros ->; apply Hc; left; reflexivity).
      rewrite (proj2 (Nat.eqb_neq c LB) Hn), (proj2 (Nat.eqb_neq c RB)) by assumption. cbn [orb app split_br].
      rewrite (proj2 (Nat.eqb_neq c LB) Hn), (proj2 (Nat.eqb_neq c RB)) by assumption. cbn [orb].
      apply IH; [destruct Hi; [congruence|assumption]|exact HF|].
      split; intros X; apply in_app_or in X; destruct X as [X|[X|[]]]; try congruence; [exact (proj1 Hcur X)|exact (proj2 Hcur X)]. }
  apply H; [exact Hi|exact HF|]. split; intros [].
Qed.
