From Verif Require Import Base BaseFacts GrayModel GraySpec.
From Coq Require Import NArith.
Local Open Scope N_scope.

Lemma gray_lxor a b : bin_to_gray (N.lxor a b) = N.lxor (bin_to_gray a) (bin_to_gray b).
Proof.
  unfold bin_to_gray. rewrite N.shiftr_lxor. apply N.bits_inj. intros k. rewrite !N.lxor_spec.
  repeat (match goal with |- context [N.testbit ?x ?k] => destruct (N.testbit x k) end); reflexivity.
Qed.

Lemma lt_pow_bits a w : a < 2 ^ w <-> forall k, w <= k -> N.testbit a k = false.
Proof.
  split.
  - intros H k Hk. destruct (N.eq_dec a 0) as [->|Ha]; [apply N.bits_0|].
    apply N.bits_above_log2. apply N.log2_lt_pow2 in H; lia.
  - intros H. destruct (N.lt_ge_cases a (2 ^ w)) as [L|L]; [exact L|].
    exfalso. assert (a <> 0) as Ha by (pose proof (N.pow_nonzero 2 w ltac:(lia)); lia).
    pose proof (N.bit_log2 a Ha) as Hb. rewrite H in Hb; [discriminate|].
    apply N.log2_le_pow2; lia.
Qed.

Lemma gray_lt w b : b < 2 ^ w -> bin_to_gray b < 2 ^ w.
Proof.
  rewrite !lt_pow_bits. intros H k Hk. unfold bin_to_gray. rewrite N.lxor_spec, N.shiftr_spec, !H by lia. reflexivity.
Qed.

Lemma gray_0 x : bin_to_gray x = 0 -> x = 0.
Proof.
  unfold bin_to_gray. intros H. apply N.lxor_eq in H. rewrite <- N.div2_spec in H.
  pose proof (N.div2_odd x). destruct (N.odd x); simpl in *; lia.
Qed.

Lemma gray_inj a b : bin_to_gray a = bin_to_gray b -> a = b.
Proof.
  intros H. assert (N.lxor a b = 0) as E.
  { apply gray_0. rewrite gray_lxor, H. apply N.lxor_nilpotent. }
  apply N.lxor_eq. exact E.
Qed.

Lemma gray_double b (c : bool) :
  bin_to_gray (2 * b + N.b2n c) = 2 * bin_to_gray b + N.b2n (xorb c (N.odd b)).
Proof.
  unfold bin_to_gray. apply N.bits_inj. intros k. destruct (N.eq_dec k 0) as [->|Hk].
  - rewrite N.lxor_spec, N.shiftr_spec, N.add_0_l by lia. rewrite N.testbit_0_r.
    rewrite N.testbit_0_r. replace 1 with (N.succ 0) by reflexivity. rewrite N.testbit_succ_r, N.bit0_odd.
    apply xorb_comm.
  - destruct (N.succ_pred_pos k ltac:(lia)). rewrite N.lxor_spec, N.shiftr_spec by lia.
    rewrite !N.testbit_succ_r. rewrite N.lxor_spec, N.shiftr_spec by lia. f_equal.
    replace (N.succ (N.pred k) + 1) with (N.succ (N.pred k + 1)) by lia. rewrite N.testbit_succ_r. reflexivity.
Qed.

Lemma gray_surj (w : nat) g : g < 2 ^ N.of_nat w -> exists b, b < 2 ^ N.of_nat w /\ bin_to_gray b = g.
Proof.
  revert g. induction w as [|w IH]; intros g Hg.
  - exists 0. simpl in *. split; [lia|]. assert (g = 0) as -> by lia. reflexivity.
  - rewrite Nat2N.inj_succ, N.pow_succ_r in * by lia.
    pose proof (N.div2_odd g) as E.
    destruct (IH (N.div2 g)) as [b [Hb Eb]].
    { revert E Hg. generalize (N.div2 g), (N.b2n (N.odd g)), (2 ^ N.of_nat w). intros; lia. }
    exists (2 * b + N.b2n (xorb (N.odd g) (N.odd b))). split.
    + destruct (xorb _ _); cbn [N.b2n]; lia.
    + rewrite gray_double, Eb. rewrite E at 3. f_equal. destruct (N.odd g), (N.odd b); reflexivity.
Qed.

Lemma succ_xor b : exists k, N.lxor b (b + 1) = N.ones (k + 1) /\ (forall w, b + 1 < 2 ^ w -> k < w).
Proof.
  induction b as [b IH] using (well_founded_induction N.lt_wf_0).
  destruct (N.eq_dec b 0) as [->|Hb0].
  { exists 0. split; [reflexivity|]. intros w Hw. destruct w; [simpl in Hw; lia|lia]. }
  pose proof (N.div2_odd b) as E. destruct (N.odd b) eqn:Eo; cbn [N.b2n] in E.
  - destruct (IH (N.div2 b)) as [k [Hk Hw]]; [lia|].
    exists (k + 1). split.
    + replace (b + 1) with (2 * (N.div2 b + 1)) by lia. rewrite E at 1.
      replace (N.ones (k + 1 + 1)) with (2 * N.ones (k + 1) + 1).
      2:{ rewrite !N.ones_equiv, !N.add_1_r, !N.pow_succ_r by lia.
          pose proof (N.pow_nonzero 2 k ltac:(lia)). lia. }
      rewrite <- Hk. apply N.bits_inj. intros j. destruct (N.eq_dec j 0) as [->|Hj].
      * rewrite N.lxor_spec. rewrite N.testbit_odd_0, N.testbit_even_0, N.testbit_odd_0. reflexivity.
      * rewrite <- (N.succ_pred_pos j) by lia. rewrite N.lxor_spec.
        rewrite N.testbit_odd_succ, N.testbit_even_succ, N.testbit_odd_succ, N.lxor_spec by lia. reflexivity.
    + intros w Hw'. destruct (N.eq_dec w 0) as [->|Hn]; [simpl in Hw'; lia|].
      rewrite <- (N.succ_pred_pos w) in Hw' |- * by lia. rewrite N.pow_succ_r in Hw' by lia.
      specialize (Hw (N.pred w) ltac:(lia)). lia.
  - exists 0. split.
    + rewrite E at 1. rewrite E at 2. rewrite N.add_0_r.
      apply N.bits_inj. intros j. destruct (N.eq_dec j 0) as [->|Hj].
      * rewrite N.lxor_spec, N.testbit_odd_0, N.testbit_even_0. reflexivity.
      * rewrite <- (N.succ_pred_pos j) by lia. rewrite N.lxor_spec.
        rewrite N.testbit_odd_succ, N.testbit_even_succ, xorb_nilpotent by lia. rewrite N.ones_spec_high by lia. reflexivity.
    + intros w Hw. destruct w; [simpl in Hw; lia|lia].
Qed.

Lemma gray_ones k : bin_to_gray (N.ones (k + 1)) = 2 ^ k.
Proof.
  unfold bin_to_gray. apply N.bits_inj. intros j. rewrite N.lxor_spec, N.shiftr_spec by lia. rewrite N.pow2_bits_eqb.
  destruct (N.lt_trichotomy j k) as [L|[->|L]].
  - rewrite !N.ones_spec_low by lia. symmetry. apply N.eqb_neq. lia.
  - rewrite N.ones_spec_high, N.ones_spec_low, N.eqb_refl by lia. reflexivity.
  - rewrite !N.ones_spec_high by lia. symmetry. apply N.eqb_neq. lia.
Qed.

Lemma one_bit w a b k : k < w -> N.lxor a b = 2 ^ k -> one_bit_apart w a b.
Proof.
  intros Hk E. exists k. split; [exact Hk|]. intros j.
  assert (xorb (N.testbit a j) (N.testbit b j) = (k =? j)) as H.
  { rewrite <- N.lxor_spec, E. apply N.pow2_bits_eqb. }
  destruct (N.eqb_spec k j); destruct (N.testbit a j), (N.testbit b j); simpl in H; try discriminate;
    split; intros; try congruence; try (exfalso; congruence).
Qed.

Lemma gray_step w b : 1 <= w -> b < 2 ^ w ->
  one_bit_apart w (bin_to_gray b) (bin_to_gray ((b + 1) mod 2 ^ w)).
Proof.
  intros Hw Hb. destruct (N.eq_dec (b + 1) (2 ^ w)) as [E|E].
  - rewrite E, N.mod_same by (apply N.pow_nonzero; lia).
    apply one_bit with (k := w - 1); [lia|].
    change (bin_to_gray 0) with 0. rewrite N.lxor_0_r.
    replace b with (N.ones (w - 1 + 1)); [apply gray_ones|].
    rewrite N.ones_equiv. replace (w - 1 + 1) with w by lia. lia.
  - rewrite N.mod_small by lia. destruct (succ_xor b) as [k [Hk Hl]].
    apply one_bit with (k := k); [apply Hl; lia|].
    rewrite <- gray_lxor, Hk. apply gray_ones.
Qed.

Fixpoint count_en (is : list bool) : N := match is with [] => 0 | b :: is' => N.b2n b + count_en is' end.

Lemma cntr_final w s is : s < 2 ^ w ->
  final (gray_cntr_step w) s is = (s + count_en is) mod 2 ^ w.
Proof.
  revert s. induction is as [|i is IH]; intros s Hs.
  - rewrite final_nil. simpl. rewrite N.add_0_r, N.mod_small by exact Hs. reflexivity.
  - assert (2 ^ w <> 0) by (apply N.pow_nonzero; lia).
    rewrite final_cons, IH.
    + cbn [gray_cntr_step fst count_en]. destruct i; cbn [N.b2n].
      * rewrite N.add_mod_idemp_l by assumption. f_equal. lia.
      * reflexivity.
    + cbn [gray_cntr_step fst]. destruct i; [apply N.mod_lt; assumption|exact Hs].
Qed.

Lemma count_en_filter is : count_en is = N.of_nat (length (filter id is)).
Proof. induction is as [|[] is IH]; cbn [count_en filter id N.b2n length]; rewrite ?Nat2N.inj_succ; lia. Qed.

Lemma cntr_law : forall (w init : N) (is : list bool) (i : bool), 1 <= w -> init < 2 ^ w ->
    let out js := snd (gray_cntr_step w (final (gray_cntr_step w) init js) false) in
    out is = bin_to_gray ((init + N.of_nat (length (filter id is))) mod 2 ^ w) /\
    (if i then one_bit_apart w (out is) (out (is ++ [i])) else out (is ++ [i]) = out is).
Proof.
  intros w init is i Hw Hi out. unfold out. cbn [gray_cntr_step snd].
  rewrite final_snoc, (cntr_final w init is Hi), count_en_filter. split; [reflexivity|].
  destruct i; [|reflexivity]. apply gray_step; [exact Hw|]. apply N.mod_lt, N.pow_nonzero. lia.
Qed.
