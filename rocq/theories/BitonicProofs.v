From Verif Require Import Base BaseFacts BitonicModel.
From Coq Require Import Permutation.

Section P.
  Context {A : Type} (u : A).

  (** [cmp] never puts an [f]-element before a non-[f]-element *)
  Definition compat (f : A -> bool) (cmp : A -> A -> bool) : Prop :=
    forall a b, (cmp a b = true -> implb (f a) (f b) = true) /\ (cmp a b = false -> implb (f b) (f a) = true).

  Lemma compat_neg f cmp : compat f cmp -> compat (fun x => negb (f x)) (fun a b => negb (cmp a b)).
  Proof.
    intros H a b. destruct (H a b) as [H1 H2].
    destruct (cmp a b); simpl; split; intros; try discriminate; destruct (f a), (f b); simpl in *; auto.
  Qed.

  (** bit [i] of the image of a list *)
  Definition bit (f : A -> bool) (l : list A) (i : nat) : bool := match nth_error l i with Some a => f a | None => false end.

  Definition bitonic01 (f : A -> bool) (l : list A) : Prop :=
    exists a b c, a <= b /\ b <= length l /\ forall i, i < length l -> bit f l i = xorb c ((a <=? i) && (i <? b)).
  Definition sorted01 (f : A -> bool) (l : list A) : Prop :=
    exists z, forall i, i < length l -> bit f l i = (z <=? i).
  Definition const01 (f : A -> bool) (l : list A) (c : bool) : Prop := forall i, i < length l -> bit f l i = c.

  Section Cmp.
    Variables (m : nat) (x : list A) (cmp : A -> A -> bool).
    Hypothesis Hx : length x = 2 * m.

    Lemma cmp_len : length (bitonic_compare u cmp x) = 2 * m.
    Proof.
      unfold bitonic_compare. rewrite Hx. replace (2 * m / 2) with m by (rewrite Nat.mul_comm, Nat.div_mul; lia).
      rewrite !app_length, !map_length, !combine_length, repeat_length, !firstn_length, skipn_length, Hx. lia.
    Qed.

    Lemma nth_combine {B C} (l : list B) (r : list C) i a b :
      nth_error l i = Some a -> nth_error r i = Some b -> nth_error (combine l r) i = Some (a, b).
    Proof.
      revert r i. induction l as [|y l IH]; intros r i Hl Hr; [destruct i; discriminate|].
      destruct r as [|z r]; [destruct i; discriminate|]. destruct i; simpl in *; [congruence|]. apply IH; assumption.
    Qed.
    Lemma nth_error_firstn {B} (l : list B) n i : i < n -> nth_error (firstn n l) i = nth_error l i.
    Proof.
      revert n i. induction l as [|y l IH]; intros n i H; [destruct n, i; reflexivity|].
      destruct n; [lia|]. destruct i; [reflexivity|]. simpl. apply IH. lia.
    Qed.
    Lemma nth_error_skipn {B} (l : list B) n i : nth_error (skipn n l) i = nth_error l (n + i).
    Proof. revert l. induction n as [|n IH]; intros l; [reflexivity|]. destruct l; [destruct i; reflexivity|]. simpl. apply IH. Qed.

    Lemma cmp_nth i : i < m -> exists a b, nth_error x i = Some a /\ nth_error x (i + m) = Some b /\
      nth_error (bitonic_compare u cmp x) i = Some (if cmp a b then a else b) /\
      nth_error (bitonic_compare u cmp x) (i + m) = Some (if cmp a b then b else a).
    Proof.
      intros Hi.
      destruct (nth_error x i) as [a|] eqn:Ea; [|apply nth_error_None in Ea; lia].
      destruct (nth_error x (i + m)) as [b|] eqn:Eb; [|apply nth_error_None in Eb; lia].
      exists a, b. split; [reflexivity|]. split; [reflexivity|].
      unfold bitonic_compare. rewrite Hx. replace (2 * m / 2) with m by (rewrite Nat.mul_comm, Nat.div_mul; lia).
      set (ps := combine (firstn m x) (firstn m (skipn m x))).
      assert (length ps = m) as Hps by (unfold ps; rewrite combine_length, !firstn_length, skipn_length, Hx; lia).
      assert (nth_error ps i = Some (a, b)) as Ep.
      { unfold ps. apply nth_combine.
        - rewrite nth_error_firstn by exact Hi. exact Ea.
        - rewrite nth_error_firstn by exact Hi. rewrite nth_error_skipn. rewrite Nat.add_comm. exact Eb. }
      split.
      - rewrite nth_error_app1 by (rewrite map_length; lia). rewrite nth_error_map, Ep. reflexivity.
      - rewrite nth_error_app2 by (rewrite map_length; lia). rewrite map_length, Hps.
        rewrite nth_error_app1 by (rewrite map_length; lia). replace (i + m - m) with i by lia.
        rewrite nth_error_map, Ep. reflexivity.
    Qed.

    (** the half cleaner *)
    Lemma half_clean f : compat f cmp ->
      forall i, i < m ->
        bit f (firstn m (bitonic_compare u cmp x)) i = bit f x i && bit f x (i + m) /\
        bit f (skipn m (bitonic_compare u cmp x)) i = bit f x i || bit f x (i + m).
    Proof.
      intros Hc i Hi. destruct (cmp_nth i Hi) as (a & b & Ea & Eb & E1 & E2).
      unfold bit. rewrite nth_error_firstn by exact Hi. rewrite nth_error_skipn, (Nat.add_comm m i), E1, E2, Ea, Eb.
      destruct (Hc a b) as [H1 H2]. destruct (cmp a b).
      - specialize (H1 eq_refl). destruct (f a), (f b); simpl in *; auto; discriminate.
      - specialize (H2 eq_refl). destruct (f a), (f b); simpl in *; auto; discriminate.
    Qed.

    Lemma bitonic_half f : compat f cmp -> bitonic01 f x ->
      let lo := firstn m (bitonic_compare u cmp x) in
      let hi := skipn m (bitonic_compare u cmp x) in
      (const01 f lo false /\ bitonic01 f hi) \/ (const01 f hi true /\ bitonic01 f lo).
    Proof.
      intros Hc (a & b & c & Hab & Hb & Hbit) lo hi.
      pose proof (half_clean f Hc) as Hh. fold lo hi in Hh.
      assert (length lo = m) as L1 by (unfold lo; rewrite firstn_length, cmp_len; lia).
      assert (length hi = m) as L2 by (unfold hi; rewrite skipn_length, cmp_len; lia).
      rewrite Hx in *.
      assert (forall i, i < m ->
        bit f lo i = xorb c ((a <=? i) && (i <? b)) && xorb c ((a <=? i + m) && (i + m <? b)) /\
        bit f hi i = xorb c ((a <=? i) && (i <? b)) || xorb c ((a <=? i + m) && (i + m <? b))) as Hh'.
      { intros i Hi. rewrite <- !Hbit by lia. apply Hh. exact Hi. }
      clear Hh. unfold const01, bitonic01. rewrite L1, L2. destruct c.
      - (* 1..1 0..0 1..1 *)
        destruct (Nat.le_gt_cases (b - a) m) as [Hs|Hs].
        + right. split.
          { intros i Hi. destruct (Hh' i Hi) as [_ ->]. clear Hh'. lia. }
          destruct (Nat.le_gt_cases b m) as [Hbm|Hbm].
          { exists a, b, true. split; [exact Hab|]. split; [exact Hbm|]. intros i Hi. destruct (Hh' i Hi) as [-> _]. clear Hh'. lia. }
          destruct (Nat.le_gt_cases m a) as [Ham|Ham].
          { exists (a - m), (b - m), true. split; [lia|]. split; [lia|]. intros i Hi. destruct (Hh' i Hi) as [-> _]. clear Hh'. lia. }
          exists (b - m), a, false. split; [lia|]. split; [lia|]. intros i Hi. destruct (Hh' i Hi) as [-> _]. clear Hh'. lia.
        + left. split.
          { intros i Hi. destruct (Hh' i Hi) as [-> _]. clear Hh'. lia. }
          exists a, (b - m), true. split; [lia|]. split; [lia|]. intros i Hi. destruct (Hh' i Hi) as [_ ->]. clear Hh'. lia.
      - (* 0..0 1..1 0..0 *)
        destruct (Nat.le_gt_cases (b - a) m) as [Hs|Hs].
        + left. split.
          { intros i Hi. destruct (Hh' i Hi) as [-> _]. clear Hh'. lia. }
          destruct (Nat.le_gt_cases b m) as [Hbm|Hbm].
          { exists a, b, false. split; [exact Hab|]. split; [exact Hbm|]. intros i Hi. destruct (Hh' i Hi) as [_ ->]. clear Hh'. lia. }
          destruct (Nat.le_gt_cases m a) as [Ham|Ham].
          { exists (a - m), (b - m), false. split; [lia|]. split; [lia|]. intros i Hi. destruct (Hh' i Hi) as [_ ->]. clear Hh'. lia. }
          exists (b - m), a, true. split; [lia|]. split; [lia|]. intros i Hi. destruct (Hh' i Hi) as [_ ->]. clear Hh'. lia.
        + right. split.
          { intros i Hi. destruct (Hh' i Hi) as [_ ->]. clear Hh'. lia. }
          exists a, (b - m), false. split; [lia|]. split; [lia|]. intros i Hi. destruct (Hh' i Hi) as [-> _]. clear Hh'. lia.
    Qed.

    Lemma cmp_perm : Permutation (bitonic_compare u cmp x) x.
    Proof.
      unfold bitonic_compare. rewrite Hx. replace (2 * m / 2) with m by (rewrite Nat.mul_comm, Nat.div_mul; lia).
      rewrite Nat.sub_diag. simpl repeat. rewrite app_nil_r.
      rewrite (firstn_all2 (skipn m x)) by (rewrite skipn_length; lia).
      assert (length (firstn m x) = length (skipn m x)) as Hl by (rewrite firstn_length, skipn_length; lia).
      rewrite <- (firstn_skipn m x) at 5.
      revert Hl. generalize (firstn m x), (skipn m x). clear. intros l r. revert r.
      induction l as [|a l IH]; intros [|b r] Hl; try discriminate; [apply Permutation_refl|].
      injection Hl as Hl. specialize (IH r Hl). cbn [combine map app fst snd].
      destruct (cmp a b).
      - apply perm_skip. rewrite <- !Permutation_middle. apply perm_skip. exact IH.
      - rewrite <- !Permutation_middle. apply perm_trans with (b :: a :: l ++ r); [|apply perm_swap].
        apply perm_skip, perm_skip. exact IH.
    Qed.
  End Cmp.

  Lemma merge_perm k : forall fuel cmp x, length x = 2 ^ k -> Permutation (bitonic_merge u fuel cmp x) x.
  Proof.
    induction k as [|k IH]; intros [|fuel] cmp x Hx; cbn [bitonic_merge]; try apply Permutation_refl.
    - rewrite Hx. apply Permutation_refl.
    - assert (length x = 2 * 2 ^ k) as Hx2 by (rewrite Hx; simpl; lia). pose proof (pow2_pos k).
      destruct (Nat.eqb_spec (length x) 1); [lia|].
      rewrite (cmp_len (2 ^ k) x cmp Hx2). replace (2 * 2 ^ k / 2) with (2 ^ k) by (rewrite Nat.mul_comm, Nat.div_mul; lia).
      pose proof (cmp_len (2 ^ k) x cmp Hx2) as Hc.
      eapply perm_trans; [apply Permutation_app; apply IH|].
      + rewrite firstn_length, Hc. lia.
      + rewrite skipn_length, Hc. lia.
      + rewrite firstn_skipn. apply (cmp_perm (2 ^ k)); exact Hx2.
  Qed.

  Lemma bit_app f l r i : bit f (l ++ r) i = if i <? length l then bit f l i else bit f r (i - length l).
  Proof.
    unfold bit. destruct (Nat.ltb_spec i (length l)); [rewrite nth_error_app1 by assumption|rewrite nth_error_app2 by assumption]; reflexivity.
  Qed.

  Lemma const_perm f l l' c : Permutation l l' -> const01 f l c -> const01 f l' c.
  Proof.
    intros HP Hc i Hi. unfold bit. destruct (nth_error l' i) as [a|] eqn:E; [|apply nth_error_None in E; lia].
    apply nth_error_In in E. apply (Permutation_in _ (Permutation_sym HP)) in E.
    apply In_nth_error in E. destruct E as [j Ej].
    assert (j < length l) as Hj by (apply nth_error_Some; congruence).
    specialize (Hc j Hj). unfold bit in Hc. rewrite Ej in Hc. exact Hc.
  Qed.

  Lemma merge_sorts f k : forall fuel cmp x, k <= fuel -> length x = 2 ^ k -> compat f cmp -> bitonic01 f x ->
    sorted01 f (bitonic_merge u fuel cmp x).
  Proof.
    induction k as [|k IH]; intros fuel cmp x Hf Hx Hc Hb.
    - assert (bitonic_merge u fuel cmp x = x) as -> by (destruct fuel; cbn [bitonic_merge]; [reflexivity|rewrite Hx; reflexivity]).
      simpl in Hx. exists (if bit f x 0 then 0 else 1). intros i Hi. assert (i = 0) as -> by lia. destruct (bit f x 0); reflexivity.
    - destruct fuel as [|fuel]; [lia|]. cbn [bitonic_merge].
      assert (length x = 2 * 2 ^ k) as Hx2 by (rewrite Hx; simpl; lia). pose proof (pow2_pos k).
      destruct (Nat.eqb_spec (length x) 1); [lia|].
      rewrite (cmp_len (2 ^ k) x cmp Hx2). replace (2 * 2 ^ k / 2) with (2 ^ k) by (rewrite Nat.mul_comm, Nat.div_mul; lia).
      pose proof (cmp_len (2 ^ k) x cmp Hx2) as Hcl.
      set (lo := firstn (2 ^ k) (bitonic_compare u cmp x)). set (hi := skipn (2 ^ k) (bitonic_compare u cmp x)).
      assert (length lo = 2 ^ k) as L1 by (unfold lo; rewrite firstn_length, Hcl; lia).
      assert (length hi = 2 ^ k) as L2 by (unfold hi; rewrite skipn_length, Hcl; lia).
      pose proof (merge_perm k fuel cmp lo L1) as P1. pose proof (merge_perm k fuel cmp hi L2) as P2.
      assert (length (bitonic_merge u fuel cmp lo) = 2 ^ k) as M1 by (rewrite (Permutation_length P1); exact L1).
      assert (length (bitonic_merge u fuel cmp hi) = 2 ^ k) as M2 by (rewrite (Permutation_length P2); exact L2).
      destruct (bitonic_half (2 ^ k) x cmp Hx2 f Hc Hb) as [[K B]|[K B]]; fold lo hi in K, B.
      + destruct (IH fuel cmp hi ltac:(lia) L2 Hc B) as [z Hz].
        apply (const_perm f _ _ _ (Permutation_sym P1)) in K.
        exists (2 ^ k + z). intros i Hi. rewrite app_length in Hi. rewrite bit_app, M1.
        destruct (Nat.ltb_spec i (2 ^ k)).
        * rewrite K by lia. symmetry. apply Nat.leb_gt. lia.
        * rewrite Hz by lia. destruct (Nat.leb_spec z (i - 2 ^ k)), (Nat.leb_spec (2 ^ k + z) i); lia.
      + destruct (IH fuel cmp lo ltac:(lia) L1 Hc B) as [z Hz].
        apply (const_perm f _ _ _ (Permutation_sym P2)) in K.
        exists (Nat.min z (2 ^ k)). intros i Hi. rewrite app_length in Hi. rewrite bit_app, M1.
        destruct (Nat.ltb_spec i (2 ^ k)).
        * rewrite Hz by lia. destruct (Nat.leb_spec z i), (Nat.leb_spec (Nat.min z (2 ^ k)) i); lia.
        * rewrite K by lia. symmetry. apply Nat.leb_le. lia.
  Qed.

  Lemma sort_perm k : forall fuel cmp x, length x = 2 ^ k -> Permutation (bitonic_sort u fuel cmp x) x.
  Proof.
    induction k as [|k IH]; intros [|fuel] cmp x Hx; cbn [bitonic_sort]; try apply Permutation_refl.
    - rewrite Hx. apply Permutation_refl.
    - assert (length x = 2 * 2 ^ k) as Hx2 by (rewrite Hx; simpl; lia). pose proof (pow2_pos k).
      destruct (Nat.leb_spec (length x) 1); [lia|].
      replace (length x / 2) with (2 ^ k) by (rewrite Hx2, Nat.mul_comm, Nat.div_mul; lia).
      assert (Permutation (bitonic_sort u fuel cmp (firstn (2 ^ k) x) ++
                bitonic_sort u fuel (fun a b => negb (cmp a b)) (skipn (2 ^ k) x)) x) as P.
      { eapply perm_trans; [apply Permutation_app; apply IH|rewrite firstn_skipn; apply Permutation_refl].
        - rewrite firstn_length. lia.
        - rewrite skipn_length. lia. }
      eapply perm_trans; [apply (merge_perm (S k))|exact P]. rewrite (Permutation_length P). exact Hx.
  Qed.

  Lemma sort_sorts k : forall f fuel cmp x, k <= fuel -> length x = 2 ^ k -> compat f cmp ->
    sorted01 f (bitonic_sort u fuel cmp x).
  Proof.
    induction k as [|k IH]; intros f fuel cmp x Hf Hx Hc.
    - assert (bitonic_sort u fuel cmp x = x) as -> by (destruct fuel; cbn [bitonic_sort]; [reflexivity|rewrite Hx; reflexivity]).
      simpl in Hx. exists (if bit f x 0 then 0 else 1). intros i Hi. assert (i = 0) as -> by lia. destruct (bit f x 0); reflexivity.
    - destruct fuel as [|fuel]; [lia|]. cbn [bitonic_sort].
      assert (length x = 2 * 2 ^ k) as Hx2 by (rewrite Hx; simpl; lia). pose proof (pow2_pos k).
      destruct (Nat.leb_spec (length x) 1); [lia|].
      replace (length x / 2) with (2 ^ k) by (rewrite Hx2, Nat.mul_comm, Nat.div_mul; lia).
      set (xl := firstn (2 ^ k) x). set (xr := skipn (2 ^ k) x).
      assert (length xl = 2 ^ k) as L1 by (unfold xl; rewrite firstn_length; lia).
      assert (length xr = 2 ^ k) as L2 by (unfold xr; rewrite skipn_length; lia).
      destruct (IH f fuel cmp xl ltac:(lia) L1 Hc) as [z1 Hz1].
      destruct (IH (fun a => negb (f a)) fuel (fun a b => negb (cmp a b)) xr ltac:(lia) L2 (compat_neg f cmp Hc)) as [z2 Hz2].
      set (s1 := bitonic_sort u fuel cmp xl) in *. set (s2 := bitonic_sort u fuel (fun a b => negb (cmp a b)) xr) in *.
      assert (length s1 = 2 ^ k) as M1 by (unfold s1; rewrite (Permutation_length (sort_perm k fuel cmp xl L1)); exact L1).
      assert (length s2 = 2 ^ k) as M2 by (unfold s2; rewrite (Permutation_length (sort_perm k fuel _ xr L2)); exact L2).
      assert (forall i, i < 2 ^ k -> bit f s2 i = negb (z2 <=? i)) as Hz2'.
      { intros i Hi. rewrite <- Hz2 by lia. unfold bit. destruct (nth_error s2 i) eqn:E; [rewrite negb_involutive; reflexivity|].
        apply nth_error_None in E. lia. }
      apply (merge_sorts f (S k)).
      + rewrite Hx2. pose proof (Nat.pow_gt_lin_r 2 (S k) ltac:(lia)). simpl in *. lia.
      + rewrite app_length. simpl. lia.
      + exact Hc.
      + exists (Nat.min z1 (2 ^ k)), (2 ^ k + Nat.min z2 (2 ^ k)), false. rewrite app_length, M1, M2.
        split; [lia|]. split; [lia|]. intros i Hi. rewrite bit_app, M1, xorb_false_l.
        destruct (Nat.ltb_spec i (2 ^ k)) as [HH|HH].
        * rewrite Hz1 by lia. clear -HH. lia.
        * rewrite Hz2' by lia. clear - HH Hi. lia.
  Qed.

  Lemma c24 : forall (leb : A -> A -> bool) (cmp : A -> A -> bool) k (x : list A),
    length x = 2 ^ k ->
    (forall a b c, leb a b = true -> leb b c = true -> leb a c = true) ->
    (forall a b, leb a b = true \/ leb b a = true) ->
    (forall a b, (cmp a b = true -> leb a b = true) /\ (cmp a b = false -> leb b a = true)) ->
    let out := bitonic_sorter u cmp x in
    Permutation out x /\
    forall i j a b, i < j -> nth_error out i = Some a -> nth_error out j = Some b -> leb a b = true.
  Proof.
    intros leb cmp k x Hx Htr Htot Hcmp out. split; [apply (sort_perm k); exact Hx|].
    intros i j a b Hij Ea Eb. destruct (leb a b) eqn:E; [reflexivity|].
    (* threshold at b *)
    set (f := fun y => negb (leb y b)).
    assert (compat f cmp) as Hc.
    { intros p q. destruct (Hcmp p q) as [H1 H2]. unfold f. split; intros H.
      - specialize (H1 H). destruct (leb q b) eqn:Eq; [|destruct (leb p b); reflexivity].
        rewrite (Htr _ _ _ H1 Eq). reflexivity.
      - specialize (H2 H). destruct (leb p b) eqn:Ep; [|destruct (leb q b); reflexivity].
        rewrite (Htr _ _ _ H2 Ep). reflexivity. }
    assert (k <= length x) as Hk by (rewrite Hx; pose proof (Nat.pow_gt_lin_r 2 k ltac:(lia)); lia).
    destruct (sort_sorts k f (length x) cmp x Hk Hx Hc) as [z Hz]. change (bitonic_sort u (length x) cmp x) with out in Hz.
    assert (i < length out) as Hi by (apply nth_error_Some; congruence).
    assert (j < length out) as Hj by (apply nth_error_Some; congruence).
    pose proof (Hz i Hi) as Z1. pose proof (Hz j Hj) as Z2. unfold bit in Z1, Z2. rewrite Ea in Z1. rewrite Eb in Z2.
    unfold f in Z1, Z2. rewrite E in Z1. assert (leb b b = true) as Er by (destruct (Htot b b); assumption).
    rewrite Er in Z2. simpl in Z1, Z2. symmetry in Z1, Z2. apply Nat.leb_le in Z1. apply Nat.leb_gt in Z2. lia.
  Qed.
End P.

Lemma c24_three : exists x, length x = 3 /\ ~ Permutation (bitonic_sorter 99 Nat.ltb x) x.
Proof.
  exists [1; 2; 3]. split; [reflexivity|]. intros H.
  assert (In 99 (bitonic_sorter 99 Nat.ltb [1; 2; 3])) as Hin by (vm_compute; auto).
  apply (Permutation_in _ H) in Hin. simpl in Hin. intuition discriminate.
Qed.
