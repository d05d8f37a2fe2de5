From Verif Require Import Base BaseFacts CrcModel CrcSpec CrcCatalogue.

(** * zip *)
Lemma zipw_cons {A B C} (f : A -> B -> C) a l b r : zipw f (a :: l) (b :: r) = f a b :: zipw f l r.
Proof. reflexivity. Qed.
Lemma zipw_nil_l {A B C} (f : A -> B -> C) r : zipw f [] r = [].
Proof. reflexivity. Qed.
Lemma zipw_length {A B C} (f : A -> B -> C) l r : length (zipw f l r) = Nat.min (length l) (length r).
Proof. unfold zipw. rewrite map_length. apply combine_length. Qed.

(** * dot products *)
Lemma fold_xorb l a : fold_left xorb l a = xorb a (fold_left xorb l false).
Proof.
  revert a. induction l as [|b l IH]; intros a; cbn [fold_left]; [rewrite xorb_false_r; reflexivity|].
  rewrite IH, xorb_false_l, (IH b). rewrite xorb_assoc. reflexivity.
Qed.
Lemma dot_cons m ms b bs : dot (m :: ms) (b :: bs) = xorb (m && b) (dot ms bs).
Proof. unfold dot. rewrite zipw_cons. cbn [fold_left]. rewrite xorb_false_l. apply fold_xorb. Qed.
Lemma dot_nil bs : dot [] bs = false.
Proof. reflexivity. Qed.

Lemma dot_xor a b d : length a = length d -> length b = length d -> dot (xor_bits a b) d = xorb (dot a d) (dot b d).
Proof.
  revert b d. induction a as [|x a IH]; intros [|y b] [|z d] H1 H2; try discriminate; [reflexivity|].
  unfold xor_bits in *. rewrite zipw_cons, !dot_cons, IH by (simpl in *; lia).
  destruct x, y, z, (dot a d), (dot b d); reflexivity.
Qed.

Lemma dot_zero n d : dot (repeat false n) d = false.
Proof. revert d. induction n as [|n IH]; intros [|z d]; try reflexivity. simpl repeat. rewrite dot_cons, IH. reflexivity. Qed.

Lemma dot_unit n x d : length d = n -> x < n -> dot (map (fun y => x =? y) (seq 0 n)) d = nth x d false.
Proof.
  intros Hd Hx. revert x Hx. assert (forall s x, s <= x -> x < s + n -> dot (map (fun y => x =? y) (seq s n)) d = nth (x - s) d false) as G.
  { revert n Hd. induction d as [|z d IH]; intros n Hd s x H1 H2; [simpl in Hd; lia|].
    destruct n; [discriminate|]. cbn [seq map]. rewrite dot_cons. destruct (Nat.eqb_spec x s) as [->|N].
    - rewrite Nat.sub_diag. simpl nth. replace (dot (map (fun y => s =? y) (seq (S s) n)) d) with false; [destruct z; reflexivity|].
      symmetry. assert (map (fun y => s =? y) (seq (S s) n) = repeat false n) as ->; [|apply dot_zero].
      clear. assert (forall k, s < k -> map (fun y => s =? y) (seq k n) = repeat false n) as G; [|apply G; lia].
      induction n as [|n IH]; intros k Hk; [reflexivity|]. simpl. rewrite IH by lia. destruct (Nat.eqb_spec s k); [lia|reflexivity].
    - simpl in Hd. rewrite (IH n ltac:(lia) (S s) x) by lia. replace (x - s) with (S (x - S s)) by lia. simpl. destruct (nth _ d false); reflexivity. }
  intros x Hx. rewrite (G 0 x) by lia. f_equal. lia.
Qed.

Lemma flip_length i l : length (flip_at i l) = length l.
Proof. unfold flip_at. rewrite zipw_length, seq_length. lia. Qed.

Lemma dot_flip i m d : length m = length d -> i < length d -> dot (flip_at i m) d = xorb (dot m d) (nth i d false).
Proof.
  intros H Hi. unfold flip_at.
  assert (forall s i, s <= i -> dot (zipw (fun j b => if j =? i then negb b else b) (seq s (length m)) m) d =
                      xorb (dot m d) (nth (i - s) d false)) as G.
  { clear Hi i. revert d H. induction m as [|x m IH]; intros [|z d] H s i Hs; try discriminate.
    - destruct (i - s); reflexivity.
    - cbn [length seq]. rewrite zipw_cons, !dot_cons. destruct (Nat.eqb_spec s i) as [->|N].
      + rewrite Nat.sub_diag. simpl nth.
        assert (zipw (fun j b => if j =? i then negb b else b) (seq (S i) (length m)) m = m) as ->.
        { clear. assert (forall k, i < k -> zipw (fun j b => if j =? i then negb b else b) (seq k (length m)) m = m) as G; [|apply G; lia].
          induction m as [|x m IH]; intros k Hk; [reflexivity|]. cbn [length seq]. rewrite zipw_cons, IH by lia.
          destruct (Nat.eqb_spec k i); [lia|reflexivity]. }
        destruct x, z, (dot m d); reflexivity.
      + rewrite (IH d ltac:(simpl in H; lia) (S s) i) by lia. replace (i - s) with (S (i - S s)) by lia. simpl nth.
        destruct (x && z), (dot m d), (nth (i - S s) d false); reflexivity. }
  rewrite (G 0 i) by lia. f_equal. f_equal. lia.
Qed.

(** * the serial register *)
Definition lfsr (poly s : list bool) (d : bool) : list bool :=
  let fb := xorb (last s false) d in
  fb :: zipw (fun x pb => xorb x (pb && fb)) (removelast s) (tl poly).

Lemma lfsr_length poly s d : 0 < length poly -> length s = length poly -> length (lfsr poly s d) = length poly.
Proof.
  intros Hp Hs. unfold lfsr. cbn [length]. rewrite zipw_length.
  assert (length (removelast s) = length s - 1) as ->.
  { destruct s as [|a s]; [reflexivity|]. rewrite (app_removelast_last false (l := a :: s)) at 2 by discriminate.
    rewrite app_length. simpl. lia. }
  destruct poly; simpl in *; lia.
Qed.

Definition row_ok (PW DW : nat) (r : row) : Prop := length (fst r) = PW /\ length (snd r) = DW.

Lemma removelast_map {A B} (f : A -> B) l : removelast (map f l) = map f (removelast l).
Proof. induction l as [|a l IH]; [reflexivity|]. destruct l; [reflexivity|]. cbn [map removelast] in *. rewrite IH. reflexivity. Qed.

Section Matrix.
  Variables (poly data state : list bool).
  Let PW := length poly.
  Let DW := length data.
  Hypothesis Hpoly : 0 < PW.
  Hypothesis Hstate : length state = PW.

  Lemma step_ok mask i : length mask = PW -> Forall (row_ok PW DW) mask -> i < DW ->
    length (mask_step poly mask i) = PW /\ Forall (row_ok PW DW) (mask_step poly mask i) /\
    apply_matrix (mask_step poly mask i) data state = lfsr poly (apply_matrix mask data state) (nth i data false).
  Proof.
    intros Hl Hok Hi.
    destruct (exists_last (l := mask)) as [init [v Em]]; [destruct mask; [simpl in Hl; lia|discriminate]|].
    subst mask. unfold mask_step. rewrite rev_app_distr. cbn [rev app].
    rewrite removelast_last. apply Forall_app in Hok. destruct Hok as [Hinit Hv]. inversion_clear Hv as [|? ? Hv' _].
    destruct v as [vs vd]. destruct Hv' as [Hvs Hvd]. cbn [fst snd] in *.
    rewrite app_length in Hl. cbn [length] in Hl.
    assert (length (flip_at i vd) = DW) as Hfl by (rewrite flip_length; exact Hvd).
    assert (length (tl poly) = length init) as Htl by (unfold PW in *; destruct poly; simpl in *; lia).
    split; [|split].
    - cbn [length]. rewrite zipw_length. lia.
    - constructor; [split; cbn [fst snd]; assumption|].
      clear Hpoly Hl. revert init Hinit Htl. generalize (tl poly). intros tp.
      induction tp as [|p tp IH]; intros [|r init] Hinit Htl; try discriminate; [constructor|].
      rewrite zipw_cons. inversion_clear Hinit as [|? ? [Hr1 Hr2] Hi']. constructor; [|apply IH; [assumption|simpl in Htl; lia]].
      destruct p; [|split; assumption]. split; cbn [fst snd]; unfold xor_bits; rewrite zipw_length; lia.
    - unfold apply_matrix. cbn [map fst snd]. rewrite map_app. cbn [map fst snd]. unfold lfsr. rewrite last_last, removelast_last.
      assert (xorb (dot vs state) (dot (flip_at i vd) data) = xorb (xorb (dot vs state) (dot vd data)) (nth i data false)) as Efb.
      { rewrite dot_flip by (lia || assumption). destruct (dot vs state), (dot vd data), (nth i data false); reflexivity. }
      rewrite Efb. f_equal. set (fb := xorb (xorb (dot vs state) (dot vd data)) (nth i data false)) in *.
      clear Hpoly Hl. revert init Hinit Htl. generalize (tl poly). intros tp.
      induction tp as [|p tp IH]; intros [|r init] Hinit Htl; try discriminate; [reflexivity|].
      inversion_clear Hinit as [|? ? [Hr1 Hr2] Hi']. cbn [map]. rewrite !zipw_cons. cbn [map]. f_equal; [|apply IH; [assumption|simpl in Htl; lia]].
      destruct p; cbn [andb fst snd]; [|rewrite xorb_false_r; reflexivity].
      rewrite !dot_xor by lia. rewrite <- Efb.
      destruct (dot (fst r) state), (dot vs state), (dot (snd r) data), (dot (flip_at i vd) data); reflexivity.
  Qed.

  Lemma build_fold is mask : length mask = PW -> Forall (row_ok PW DW) mask -> Forall (fun i => i < DW) is ->
    apply_matrix (fold_left (mask_step poly) is mask) data state =
    fold_left (lfsr poly) (map (fun i => nth i data false) is) (apply_matrix mask data state).
  Proof.
    revert mask. induction is as [|i is IH]; intros mask Hl Hok His; [reflexivity|].
    inversion_clear His as [|? ? Hi His']. destruct (step_ok mask i Hl Hok Hi) as (H1 & H2 & H3).
    cbn [fold_left map]. rewrite IH by assumption. rewrite H3. reflexivity.
  Qed.

  Lemma matrix_is_serial : apply_matrix (build_matrix DW poly) data state = fold_left (lfsr poly) (rev data) state.
  Proof.
    unfold build_matrix. rewrite build_fold.
    - f_equal.
      + rewrite map_rev. f_equal. unfold DW. clear.
        assert (forall pre, map (fun i => nth i (pre ++ data) false) (seq (length pre) (length data)) = data) as G; [|exact (G [])].
        induction data as [|d l IH]; intros pre; [reflexivity|]. cbn [length seq map].
        rewrite app_nth2, Nat.sub_diag by lia. cbn [nth]. f_equal.
        specialize (IH (pre ++ [d])). rewrite <- app_assoc, app_length in IH. cbn [app length] in IH. rewrite Nat.add_1_r in IH. exact IH.
      + unfold apply_matrix, mask_init. rewrite map_map. cbn [fst snd].
        apply nth_ext with (d := false) (d' := false); [rewrite map_length, seq_length; symmetry; exact Hstate|].
        intros k Hk. rewrite map_length, seq_length in Hk.
        rewrite (nth_indep _ false (xorb (dot (map (fun y => 0 =? y) (seq 0 (length poly))) state) (dot (repeat false DW) data))) by (rewrite map_length, seq_length; exact Hk).
        rewrite (map_nth (fun x => xorb (dot (map (fun y => x =? y) (seq 0 (length poly))) state) (dot (repeat false DW) data))).
        rewrite seq_nth by exact Hk. simpl Nat.add. rewrite dot_zero, xorb_false_r. apply dot_unit; [exact Hstate|exact Hk].
    - unfold mask_init. rewrite map_length, seq_length. reflexivity.
    - unfold mask_init. apply Forall_forall. intros r Hr. apply in_map_iff in Hr. destruct Hr as [x [<- Hx]].
      split; cbn [fst snd]; [rewrite map_length, seq_length; reflexivity|apply repeat_length].
    - apply Forall_forall. intros i Hi. apply in_rev in Hi. apply in_seq in Hi. lia.
  Qed.
End Matrix.

(** * numbers *)
Local Open Scope N_scope.

Lemma num_testbit l i : N.testbit (num l) (N.of_nat i) = nth i l false.
Proof.
  revert i. induction l as [|b l IH]; intros i; [destruct i; apply N.bits_0|].
  cbn [num]. rewrite N.add_comm. destruct i as [|i].
  - rewrite N.testbit_0_r. reflexivity.
  - rewrite Nat2N.inj_succ, N.testbit_succ_r, IH. reflexivity.
Qed.
Lemma num_lt l : num l < 2 ^ N.of_nat (length l).
Proof.
  induction l as [|b l IH]; [reflexivity|]. cbn [num length]. rewrite Nat2N.inj_succ, N.pow_succ_r by lia.
  destruct b; cbn [N.b2n]; lia.
Qed.
Lemma num_app l r : num (l ++ r) = num l + num r * 2 ^ N.of_nat (length l).
Proof.
  induction l as [|b l IH]; [simpl; lia|]. cbn [num app length]. rewrite IH, Nat2N.inj_succ, N.pow_succ_r by lia. lia.
Qed.

Lemma testbit_nat (a b : N) : (forall i : nat, N.testbit a (N.of_nat i) = N.testbit b (N.of_nat i)) -> a = b.
Proof. intros H. apply N.bits_inj. intros i. rewrite <- (N2Nat.id i). apply H. Qed.

Lemma mul_pow2_bits a n i : N.testbit (a * 2 ^ N.of_nat n) (N.of_nat i) = if (i <? n)%nat then false else N.testbit a (N.of_nat (i - n)).
Proof.
  destruct (Nat.ltb_spec i n).
  - apply N.mul_pow2_bits_low. lia.
  - rewrite N.mul_pow2_bits_high by lia. f_equal. lia.
Qed.
Lemma double_bits a i : N.testbit (2 * a) (N.of_nat i) = match i with O => false | S j => N.testbit a (N.of_nat j) end.
Proof.
  destruct i; [apply N.testbit_even_0|]. rewrite Nat2N.inj_succ. apply N.testbit_even_succ. lia.
Qed.
Lemma pow_bit n i : N.testbit (2 ^ N.of_nat n) (N.of_nat i) = (i =? n)%nat.
Proof. rewrite N.pow2_bits_eqb. destruct (N.eqb_spec (N.of_nat n) (N.of_nat i)), (Nat.eqb_spec i n); try reflexivity; lia. Qed.

Lemma poly_bits poly i : N.testbit (poly_of poly) (N.of_nat i) = if (i =? length poly)%nat then true else nth i poly false.
Proof.
  unfold poly_of. rewrite N.add_nocarry_lxor.
  - rewrite N.lxor_spec, num_testbit, pow_bit. destruct (Nat.eqb_spec i (length poly)) as [->|].
    + rewrite nth_overflow by lia. reflexivity.
    + apply xorb_false_r.
  - apply testbit_nat. intros j. rewrite N.land_spec, num_testbit, pow_bit, N.bits_0.
    destruct (Nat.eqb_spec j (length poly)) as [->|]; [rewrite nth_overflow by lia|rewrite andb_false_r]; reflexivity.
Qed.

(** one step of the serial register: S' = 2 S + d x^pw  (+ P if that has degree pw) *)
Lemma lfsr_num poly s d : (0 < length poly)%nat -> hd false poly = true -> length s = length poly ->
  num (lfsr poly s d) =
  N.lxor (N.lxor (2 * num s) (N.b2n d * 2 ^ N.of_nat (length poly)))
         (if xorb (last s false) d then poly_of poly else 0).
Proof.
  intros Hp Hhd Hs. apply testbit_nat. intros i.
  rewrite !N.lxor_spec, num_testbit, double_bits, mul_pow2_bits.
  destruct (exists_last (l := s)) as [s0 [m Es]]; [destruct s; [simpl in Hs; lia|discriminate]|]. subst s.
  unfold lfsr. rewrite last_last, removelast_last. set (fb := xorb m d). rewrite app_length in Hs. simpl in Hs.
  assert (N.testbit (if fb then poly_of poly else 0) (N.of_nat i) = fb && (if (i =? length poly)%nat then true else nth i poly false)) as ->.
  { destruct fb; [apply poly_bits|apply N.bits_0]. }
  assert (N.testbit (N.b2n d) (N.of_nat (i - length poly)) = (d && (i - length poly =? 0)%nat)) as Hd.
  { destruct d; cbn [N.b2n]; [|apply N.bits_0]. destruct (i - length poly)%nat as [|j]; reflexivity. }
  rewrite Hd. destruct i as [|i].
  - cbn [nth]. destruct (Nat.ltb_spec 0 (length poly)); [|lia]. destruct (Nat.eqb_spec 0 (length poly)); [lia|].
    destruct poly; [discriminate|]. simpl in Hhd. subst. simpl nth. destruct fb; reflexivity.
  - rewrite num_testbit. cbn [nth].
    destruct (Nat.lt_ge_cases (S i) (length poly)) as [L|L].
    + destruct (Nat.ltb_spec (S i) (length poly)); [|lia]. destruct (Nat.eqb_spec (S i) (length poly)); [lia|].
      rewrite xorb_false_r. rewrite app_nth1 by lia.
      assert (forall (l r : list bool), length l = length r -> (i < length l)%nat ->
        nth i (zipw (fun x pb => xorb x (pb && fb)) l r) false = xorb (nth i l false) (nth i r false && fb)) as G.
      { clear. revert i. intros i l. revert i. induction l as [|x l IH]; intros i [|y r] H1 H2; simpl in *; try lia.
        destruct i; [reflexivity|]. apply IH; lia. }
      rewrite G by (destruct poly; simpl in *; lia).
      assert (nth (S i) poly false = nth i (tl poly) false) as -> by (destruct poly; [destruct i; reflexivity|reflexivity]).
      rewrite andb_comm. reflexivity.
    + rewrite nth_overflow by (rewrite zipw_length; destruct poly; simpl in *; lia).
      destruct (Nat.ltb_spec (S i) (length poly)); [lia|].
      destruct (Nat.eqb_spec (S i) (length poly)) as [E|N].
      * rewrite <- E, Nat.sub_diag. rewrite app_nth2 by lia. replace (i - length s0)%nat with 0%nat by lia. simpl nth. simpl Nat.eqb.
        unfold fb. destruct m, d; reflexivity.
      * rewrite (nth_overflow (s0 ++ [m])) by (rewrite app_length; simpl; lia). rewrite (nth_overflow poly) by lia.
        destruct (Nat.eqb_spec (S i - length poly) 0); [lia|]. rewrite !andb_false_r. reflexivity.
Qed.

(** * polynomial products *)
Lemma pmul_double q p : pmul (2 * q) p = 2 * pmul q p.
Proof. destruct q; reflexivity. Qed.
Lemma pmul_succ_double q p : pmul (2 * q + 1) p = N.lxor p (2 * pmul q p).
Proof. destruct q; [simpl; rewrite N.lxor_0_r|]; reflexivity. Qed.
Lemma double_lxor a b : 2 * N.lxor a b = N.lxor (2 * a) (2 * b).
Proof. apply testbit_nat. intros i. rewrite N.lxor_spec, !double_bits. destruct i; [reflexivity|apply N.lxor_spec]. Qed.

Lemma pmul_degree p q : p <> 0 -> q <> 0 -> pmul q p <> 0 /\ N.log2 (pmul q p) = N.log2 q + N.log2 p.
Proof.
  intros Hp. destruct q as [|q]; [congruence|]. intros _. cbn [pmul].
  induction q as [q IH|q IH|].
  - destruct IH as [I1 I2]. cbn [pmul_pos]. set (m := pmul_pos q p) in *.
    assert (N.log2 p < N.log2 (2 * m)) as Hlt by (rewrite N.log2_double by lia; lia).
    assert (N.log2 (N.lxor p (2 * m)) = N.log2 (2 * m)) as E.
    { apply N.log2_bits_unique.
      - rewrite N.lxor_spec, N.bit_log2 by lia. rewrite N.bits_above_log2 by lia. reflexivity.
      - intros j Hj. rewrite N.lxor_spec, !N.bits_above_log2 by lia. reflexivity. }
    split.
    + intros E0. rewrite E0 in E. change (N.log2 0) with 0 in E. lia.
    + rewrite E, N.log2_double, I2 by lia. change (N.pos q~1) with (2 * N.pos q + 1). rewrite N.log2_succ_double by lia. lia.
  - destruct IH as [I1 I2]. cbn [pmul_pos]. split; [lia|]. rewrite N.log2_double, I2 by lia.
    change (N.pos q~0) with (2 * N.pos q). rewrite N.log2_double by lia. lia.
  - cbn [pmul_pos]. split; [exact Hp|]. reflexivity.
Qed.

Lemma pmul_add q1 : forall q2 p, pmul (N.lxor q1 q2) p = N.lxor (pmul q1 p) (pmul q2 p).
Proof.
  induction q1 as [q1 IH] using (well_founded_induction N.lt_wf_0). intros q2 p.
  destruct (N.eq_dec q1 0) as [->|H1]; [rewrite !N.lxor_0_l; reflexivity|].
  pose proof (N.div2_odd q1) as E1. pose proof (N.div2_odd q2) as E2.
  set (a := N.div2 q1) in *. set (b := N.div2 q2) in *.
  assert (a < q1) as Ha by (destruct (N.odd q1); cbn [N.b2n] in E1; lia).
  specialize (IH a Ha b p).
  assert (forall x (c : bool), pmul (2 * x + N.b2n c) p = N.lxor (if c then p else 0) (2 * pmul x p)) as Hs.
  { intros x []; cbn [N.b2n]; [apply pmul_succ_double|]. rewrite N.add_0_r, pmul_double, N.lxor_0_l. reflexivity. }
  assert (N.lxor q1 q2 = 2 * N.lxor a b + N.b2n (xorb (N.odd q1) (N.odd q2))) as ->.
  { rewrite E1 at 1. rewrite E2 at 1. apply testbit_nat. intros i. rewrite N.lxor_spec. destruct i.
    - rewrite !N.testbit_0_r. reflexivity.
    - rewrite Nat2N.inj_succ, !N.testbit_succ_r, N.lxor_spec. reflexivity. }
  rewrite Hs, IH. rewrite E1 at 2. rewrite E2 at 2. rewrite !Hs, double_lxor.
  apply N.bits_inj. intros i. rewrite !N.lxor_spec.
  destruct (N.odd q1), (N.odd q2); cbn [xorb]; rewrite ?N.bits_0;
    destruct (N.testbit p i), (N.testbit (2 * pmul a p) i), (N.testbit (2 * pmul b p) i); reflexivity.
Qed.

Lemma remainder_unique poly a r1 r2 :
  is_remainder (length poly) (poly_of poly) a r1 -> is_remainder (length poly) (poly_of poly) a r2 -> r1 = r2.
Proof.
  intros [L1 [q1 E1]] [L2 [q2 E2]].
  assert (N.lxor r1 r2 = pmul (N.lxor q1 q2) (poly_of poly)) as E.
  { rewrite pmul_add, <- E1, <- E2. apply N.bits_inj. intros i. rewrite !N.lxor_spec.
    destruct (N.testbit a i), (N.testbit r1 i), (N.testbit r2 i); reflexivity. }
  apply N.lxor_eq. destruct (N.eq_dec (N.lxor q1 q2) 0) as [Z|NZ]; [rewrite Z in E; exact E|].
  exfalso. assert (poly_of poly <> 0) as HP by (unfold poly_of; pose proof (N.pow_nonzero 2 (N.of_nat (length poly))); lia).
  destruct (pmul_degree (poly_of poly) (N.lxor q1 q2) HP NZ) as [H0 Hd]. rewrite <- E in H0, Hd.
  assert (N.log2 (poly_of poly) = N.of_nat (length poly)) as HlP.
  { apply N.log2_unique'  with (c := num poly); [lia|split; [lia|apply num_lt]|unfold poly_of; lia]. }
  assert (N.lxor r1 r2 < 2 ^ N.of_nat (length poly)) as Hlt.
  { destruct (N.lt_ge_cases (N.lxor r1 r2) (2 ^ N.of_nat (length poly))) as [|G]; [assumption|].
    apply N.log2_le_mono in G. rewrite N.log2_pow2 in G by lia.
    pose proof (N.bit_log2 _ H0) as Hb. rewrite N.lxor_spec in Hb.
    assert (forall r, r < 2 ^ N.of_nat (length poly) -> N.testbit r (N.log2 (N.lxor r1 r2)) = false) as Hz.
    { intros r Hr. destruct (N.eq_dec r 0) as [->|Hr0]; [apply N.bits_0|]. apply N.bits_above_log2.
      apply N.log2_lt_pow2 in Hr; lia. }
    rewrite (Hz r1 L1), (Hz r2 L2) in Hb. discriminate. }
  apply N.log2_lt_pow2 in Hlt; [lia|lia].
Qed.

(** * the serial register computes the remainder *)
Lemma serial_remainder poly : (0 < length poly)%nat -> hd false poly = true ->
  forall bits s, length s = length poly ->
    length (fold_left (lfsr poly) bits s) = length poly /\
    is_remainder (length poly) (poly_of poly) (msg_poly (length poly) s bits) (num (fold_left (lfsr poly) bits s)).
Proof.
  intros Hp Hhd bits. induction bits as [|d bits IH] using rev_ind; intros s Hs.
  - split; [exact Hs|]. split; [cbn [fold_left]; rewrite <- Hs; apply num_lt|].
    exists 0. unfold msg_poly. cbn. rewrite N.mul_1_r, N.lxor_0_r. apply N.lxor_nilpotent.
  - destruct (IH s Hs) as [Hl [_ [q Eq]]].
    rewrite fold_left_app. cbn [fold_left]. set (s' := fold_left (lfsr poly) bits s) in *.
    pose proof (lfsr_length poly s' d Hp Hl) as Hl'.
    split; [exact Hl'|]. split; [rewrite <- Hl' at 1; apply num_lt|].
    exists (2 * q + N.b2n (xorb (last s' false) d)).
    assert (pmul (2 * q + N.b2n (xorb (last s' false) d)) (poly_of poly) =
            N.lxor (if xorb (last s' false) d then poly_of poly else 0) (2 * pmul q (poly_of poly))) as ->.
    { destruct (xorb (last s' false) d); cbn [N.b2n]; [apply pmul_succ_double|]. rewrite N.add_0_r, pmul_double, N.lxor_0_l. reflexivity. }
    rewrite <- Eq, (lfsr_num poly s' d Hp Hhd Hl), double_lxor.
    assert (msg_poly (length poly) s (bits ++ [d]) =
            N.lxor (2 * msg_poly (length poly) s bits) (N.b2n d * 2 ^ N.of_nat (length poly))) as ->.
    { unfold msg_poly. rewrite rev_app_distr. cbn [rev app num]. rewrite app_length. cbn [length].
      rewrite Nat.add_1_r, Nat2N.inj_succ, N.pow_succ_r by lia. rewrite double_lxor.
      apply N.bits_inj. intros i. rewrite !N.lxor_spec.
      replace (num s * (2 * 2 ^ N.of_nat (length bits))) with (2 * (num s * 2 ^ N.of_nat (length bits))) by lia.
      rewrite xorb_assoc. f_equal. rewrite <- N.lxor_spec. f_equal.
      replace ((N.b2n d + 2 * num (rev bits)) * 2 ^ N.of_nat (length poly))
        with (2 * (num (rev bits) * 2 ^ N.of_nat (length poly)) + N.b2n d * 2 ^ N.of_nat (length poly)) by lia.
      apply N.add_nocarry_lxor. apply testbit_nat. intros j. rewrite N.land_spec, N.bits_0, mul_pow2_bits.
      replace (2 * (num (rev bits) * 2 ^ N.of_nat (length poly))) with ((2 * num (rev bits)) * 2 ^ N.of_nat (length poly)) by lia.
      rewrite mul_pow2_bits. destruct (Nat.ltb_spec j (length poly)); [reflexivity|]. rewrite double_bits.
      destruct (j - length poly)%nat; [reflexivity|]. destruct d; [|apply andb_false_r]. cbn [N.b2n N.of_nat N.testbit]. destruct (N.testbit _ _); reflexivity. }
    apply N.bits_inj. intros i. rewrite !N.lxor_spec.
    destruct (xorb (last s' false) d); rewrite ?N.bits_0;
      repeat match goal with |- context [N.testbit ?x ?y] => destruct (N.testbit x y) end; reflexivity.
Qed.
Local Close Scope N_scope.

Lemma c25 : forall (poly state data : list bool),
  hd false poly = true -> length state = length poly ->
  let r := apply_matrix (build_matrix (length data) poly) data state in
  length r = length poly /\
  is_remainder (length poly) (poly_of poly) (msg_poly (length poly) state (rev data)) (num r).
Proof.
  intros poly state data Hhd Hs r. assert (0 < length poly) as Hp by (destruct poly; [discriminate|simpl; lia]).
  unfold r. rewrite (matrix_is_serial poly data state Hp Hs). apply serial_remainder; assumption.
Qed.

(** * bytes *)
Lemma rev_concat (l : list (list bool)) : rev (concat l) = concat (rev (map (@rev bool) l)).
Proof.
  induction l as [|a l IH]; [reflexivity|]. cbn [concat map rev]. rewrite rev_app_distr, IH, concat_app.
  cbn [concat]. rewrite app_nil_r. reflexivity.
Qed.

Lemma in_bits_order be refin bytes : rev (in_bits be refin bytes) = msg_bits refin (word_bytes be bytes).
Proof.
  unfold in_bits, msg_bits, word_bytes. rewrite rev_concat.
  assert (rev (if be then bytes else rev bytes) = if be then rev bytes else bytes) as E by (destruct be; [reflexivity|apply rev_involutive]).
  destruct refin.
  - rewrite map_map, <- map_rev, E.
    rewrite (map_ext _ (fun b => b)) by (intros; apply rev_involutive). reflexivity.
  - rewrite <- map_rev, E. reflexivity.
Qed.

Lemma nth_xor_bits a b i : i < length a -> length a = length b -> nth i (xor_bits a b) false = xorb (nth i a false) (nth i b false).
Proof.
  revert b i. induction a as [|x a IH]; intros [|y b] i Hi Hl; simpl in Hl, Hi; try lia.
  destruct i as [|i]; [reflexivity|]. unfold xor_bits. rewrite zipw_cons. cbn [nth]. apply IH; lia.
Qed.

Lemma c_out poly (refout : bool) r x init bytes refin : length r = length poly -> length x = length poly ->
  is_remainder (length poly) (poly_of poly) (msg_poly (length poly) init (msg_bits refin bytes)) (num r) ->
  is_crc poly init x refin refout bytes (xor_bits (if refout then rev r else r) x).
Proof.
  intros Hr Hx Hrem. exists r. split; [exact Hr|]. split; [exact Hrem|].
  assert (length (if refout then rev r else r) = length poly) as Hl by (destruct refout; rewrite ?rev_length; exact Hr).
  split; [unfold xor_bits; rewrite zipw_length; lia|].
  intros i Hi. rewrite nth_xor_bits by lia. f_equal. destruct refout; [|reflexivity].
  rewrite rev_nth by lia. f_equal. lia.
Qed.

Lemma rev_repeat {A} (b : A) n : rev (repeat b n) = repeat b n.
Proof. induction n as [|n IH]; [reflexivity|]. simpl. rewrite IH. clear. induction n; [reflexivity|]. simpl. f_equal. exact IHn. Qed.
Lemma rib_uniform b fuel : forall n, n <= fuel -> rev_in_bytes fuel (repeat b n) = repeat b n.
Proof.
  induction fuel as [|f IH]; intros n Hn; [reflexivity|]. cbn [rev_in_bytes]. destruct n; [reflexivity|].
  destruct (repeat b (S n)) eqn:E; [discriminate|]. rewrite <- E.
  assert (firstn 8 (repeat b (S n)) = repeat b (Nat.min 8 (S n))) as ->.
  { clear. generalize 8, (S n). intros k m. revert m. induction k; intros [|m]; try reflexivity. simpl. f_equal. apply IHk. }
  assert (skipn 8 (repeat b (S n)) = repeat b (S n - 8)) as ->.
  { clear. generalize 8, (S n). intros k m. revert m. induction k; intros [|m]; try reflexivity. simpl. apply IHk. }
  rewrite IH, rev_repeat, <- repeat_app by lia. f_equal. lia.
Qed.

Lemma c25_comb : forall (c : crc_cfg) (bytes : list (list bool)),
  hd false (c_poly c) = true -> length (c_init c) = length (c_poly c) -> length (c_xorout c) = length (c_poly c) ->
  (c_refout c = true -> uniform (c_xorout c)) ->
  is_crc (c_poly c) (c_init c) (c_xorout c) (c_refin c) (c_refout c) (word_bytes (c_bigendian c) bytes) (crc_comb c bytes).
Proof.
  intros c bytes Hhd Hi Hx Hu. unfold crc_comb.
  set (data := in_bits (c_bigendian c) (c_refin c) bytes).
  destruct (c25 (c_poly c) (c_init c) data Hhd Hi) as [Hl Hr].
  unfold data in Hr at 1. rewrite in_bits_order in Hr.
  assert ((if c_refout c then rev_in_bytes (length (c_xorout c)) (c_xorout c) else c_xorout c) = c_xorout c) as ->.
  { destruct (c_refout c); [|reflexivity]. destruct (Hu eq_refl) as [b ->]. rewrite repeat_length. apply rib_uniform. lia. }
  apply c_out; assumption.
Qed.

Lemma skipn_rev {A} (l : list A) n : n <= length l -> skipn (length l - n) (rev l) = rev (firstn n l).
Proof.
  intros H. rewrite <- (firstn_skipn n l) at 2. rewrite rev_app_distr, skipn_app, rev_length, skipn_length.
  rewrite skipn_all2 by (rewrite rev_length, skipn_length; lia). rewrite Nat.sub_diag. reflexivity.
Qed.

Lemma next_serial c s n bytes : hd false (c_poly c) = true -> length s = length (c_poly c) ->
  (c_bigendian c = false /\ n <= length bytes) \/ n = length bytes ->
  crc_next c s n bytes = fold_left (lfsr (c_poly c)) (msg_bits (c_refin c) (word_bytes (c_bigendian c) (firstn n bytes))) s.
Proof.
  intros Hhd Hs Hc. rewrite <- in_bits_order. unfold crc_next.
  assert (skipn (length bytes - n) (if c_bigendian c then bytes else rev bytes) =
          if c_bigendian c then firstn n bytes else rev (firstn n bytes)) as ->.
  { destruct Hc as [[-> Hn]| ->]; [apply skipn_rev; exact Hn|]. rewrite Nat.sub_diag, firstn_all. reflexivity. }
  fold (in_bits (c_bigendian c) (c_refin c) (firstn n bytes)). apply matrix_is_serial.
  - destruct (c_poly c); [discriminate|simpl; lia].
  - exact Hs.
Qed.

Lemma msg_bits_app refin a b : msg_bits refin (a ++ b) = msg_bits refin a ++ msg_bits refin b.
Proof. unfold msg_bits. rewrite map_app, concat_app. reflexivity. Qed.

Lemma mask_cnt_zeros n : mask_cnt (repeat false n) = Some 0.
Proof. destruct n; [reflexivity|]. cbn [repeat mask_cnt]. replace (existsb _ _) with false; [reflexivity|]. induction n; [reflexivity|exact IHn]. Qed.
Lemma mask_is_cnt m k : mask_is m k -> mask_cnt m = Some k.
Proof.
  intros [E H]. rewrite E. clear E. generalize (length m - k). intros z.
  clear H. induction k as [|k IH]; [apply mask_cnt_zeros|]. cbn [repeat app mask_cnt]. rewrite IH. reflexivity.
Qed.

Lemma mask_is_ones m k : mask_is m k -> ones m = k.
Proof.
  intros [E H]. unfold ones. rewrite E, filter_app, app_length. clear E. generalize (length m - k). intros z. clear H.
  replace (filter (fun b => b) (repeat false z)) with (@nil bool) by (induction z; [reflexivity|exact IHz]).
  simpl. rewrite Nat.add_0_r. induction k as [|k IH]; [reflexivity|]. simpl. rewrite IH. reflexivity.
Qed.

Section Frames.
  Variables (c : crc_cfg) (u : list bool).
  Hypothesis Hhd : hd false (c_poly c) = true.
  Hypothesis Hbe : c_bigendian c = false.
  Hypothesis Hinit : length (c_init c) = length (c_poly c).

  Lemma cyc_next s i : length s = length (c_poly c) -> good_in i ->
    crc_state_next c u s i = fold_left (lfsr (c_poly c)) (msg_bits (c_refin c) (cyc_bytes i)) s.
  Proof.
    intros Hs Gi. unfold crc_state_next, cyc_bytes. destruct (ci_vld i) eqn:E; [|reflexivity].
    destruct (Gi E) as [Hl [k Hk]]. pose proof (proj2 Hk) as Hk2. rewrite (mask_is_cnt _ _ Hk), (mask_is_ones _ _ Hk).
    rewrite next_serial; [|assumption|assumption|left; split; [exact Hbe|lia]]. unfold word_bytes. rewrite Hbe. reflexivity.
  Qed.
  Lemma cyc_len s bits : length s = length (c_poly c) -> length (fold_left (lfsr (c_poly c)) bits s) = length (c_poly c).
  Proof.
    intros Hs. apply (serial_remainder (c_poly c)); [|exact Hhd|exact Hs]. destruct (c_poly c); [discriminate|simpl; lia].
  Qed.

  Lemma any_len is s t : length s = length (c_poly c) -> Forall good_in is ->
    length (fst (final (crc_step c u) (s, t) is)) = length (c_poly c).
  Proof.
    revert s t. induction is as [|i is IH]; intros s t Hs Hg; [exact Hs|].
    inversion_clear Hg. rewrite final_cons. unfold crc_step at 2. cbn [fst snd]. apply IH; [|assumption].
    destruct (ci_vld i && ci_last i); [exact Hinit|]. rewrite cyc_next by assumption. apply cyc_len. exact Hs.
  Qed.

  Lemma frame_run is : forall s t, length s = length (c_poly c) -> Forall good_in is -> Forall (fun i => ci_vld i && ci_last i = false) is ->
    fst (final (crc_step c u) (s, t) is) = fold_left (lfsr (c_poly c)) (msg_bits (c_refin c) (concat (map cyc_bytes is))) s.
  Proof.
    induction is as [|i is IH]; intros s t Hs Hg Hn; [reflexivity|].
    rewrite final_cons. inversion_clear Hg as [|? ? Gi Gis]. inversion_clear Hn as [|? ? Ni Nis].
    unfold crc_step at 2. cbn [fst snd]. rewrite Ni.
    cbn [map concat]. rewrite msg_bits_app, fold_left_app.
    rewrite <- (cyc_next s i) by assumption. apply IH; [|assumption|assumption].
    rewrite cyc_next by assumption. apply cyc_len. exact Hs.
  Qed.

  Lemma start_init pre t0 : Forall good_in pre -> at_frame_start pre -> fst (final (crc_step c u) (c_init c, t0) pre) = c_init c.
  Proof.
    induction pre as [|i pre IH] using rev_ind; intros Hg Ha; [reflexivity|].
    apply Forall_app in Hg. destruct Hg as [Hg Hi]. rewrite final_snoc. unfold crc_step. cbn [fst snd].
    destruct (ci_vld i) eqn:Ev.
    - rewrite (Ha pre i []); [reflexivity|reflexivity|exact Ev|intros j []].
    - cbn [andb]. unfold crc_state_next. rewrite Ev. apply IH; [exact Hg|].
      intros a j b E Hj Hb. apply (Ha a j (b ++ [i])).
      + rewrite E, <- app_assoc. reflexivity.
      + exact Hj.
      + intros x Hx. apply in_app_or in Hx. destruct Hx as [Hx|[<-|[]]]; [apply Hb; exact Hx|exact Ev].
  Qed.
End Frames.

Lemma c26 : forall (c : crc_cfg) (u t0 : list bool) (pre frame : list crc_in) (lst nxt : crc_in),
  hd false (c_poly c) = true -> length (c_init c) = length (c_poly c) -> length (c_xorout c) = length (c_poly c) ->
  c_bigendian c = false -> rev (c_xorout c) = c_xorout c ->
  Forall good_in (pre ++ frame ++ [lst]) -> at_frame_start pre ->
  Forall (fun i => ci_vld i && ci_last i = false) frame -> ci_vld lst = true ->
  is_crc (c_poly c) (c_init c) (c_xorout c) (c_refin c) (c_refout c) (concat (map cyc_bytes (frame ++ [lst])))
         (snd (crc_step c u (final (crc_step c u) (c_init c, t0) (pre ++ frame ++ [lst])) nxt)).
Proof.
  intros c u t0 pre frame lst nxt Hhd Hi Hx Hb Hpal Hg Ha Hn Hv.
  apply Forall_app in Hg. destruct Hg as [Hgp Hg].
  apply Forall_app in Hg. destruct Hg as [Hg Hgl]. inversion_clear Hgl as [|? ? Gl _].
  rewrite final_app. pose proof (start_init c u pre t0 Hgp Ha) as Es.
  destruct (final (crc_step c u) (c_init c, t0) pre) as [s0 t1]. cbn [fst] in Es. subst s0.
  rewrite final_snoc. pose proof (frame_run c u Hhd Hb Hi frame (c_init c) t1 Hi Hg Hn) as Ef.
  set (s1 := final (crc_step c u) (c_init c, t1) frame) in *.
  unfold crc_step. cbn [fst snd]. unfold crc_output. rewrite Hpal.
  assert (crc_state_next c u (fst s1) lst = fold_left (lfsr (c_poly c)) (msg_bits (c_refin c) (concat (map cyc_bytes (frame ++ [lst])))) (c_init c)) as E.
  { rewrite map_app, concat_app. cbn [map concat]. rewrite app_nil_r, msg_bits_app, fold_left_app, <- Ef.
    apply cyc_next; try assumption. rewrite Ef. apply cyc_len; assumption. }
  rewrite E. assert (0 < length (c_poly c)) as Hp by (destruct (c_poly c); [discriminate|simpl; lia]).
  destruct (serial_remainder (c_poly c) Hp Hhd (msg_bits (c_refin c) (concat (map cyc_bytes (frame ++ [lst])))) (c_init c) Hi) as [HL HR].
  apply c_out; assumption.
Qed.

Lemma c26_words : forall (c : crc_cfg) (lat0 : bool) (is : list (option (list (list bool)))) (i : option (list (list bool))),
  hd false (c_poly c) = true -> length (c_init c) = length (c_poly c) -> length (c_xorout c) = length (c_poly c) ->
  rev (c_xorout c) = c_xorout c ->
  is_crc (c_poly c) (c_init c) (c_xorout c) (c_refin c) (c_refout c)
         (concat (map (opt_bytes (c_bigendian c)) (if lat0 then is ++ [i] else is)))
         (snd (crcw_step c lat0 (final (crcw_step c lat0) (c_init c) is) i)).
Proof.
  intros c lat0 is i Hhd Hi Hx Hpal. assert (0 < length (c_poly c)) as Hp by (destruct (c_poly c); [discriminate|simpl; lia]).
  assert (forall s j, length s = length (c_poly c) ->
    match j with Some bytes => crc_next c s (length bytes) bytes | None => s end =
    fold_left (lfsr (c_poly c)) (msg_bits (c_refin c) (opt_bytes (c_bigendian c) j)) s) as En.
  { intros s [w|] Hs; [|reflexivity]. rewrite next_serial; [|assumption|assumption|right; reflexivity]. rewrite firstn_all. reflexivity. }
  assert (forall js, final (crcw_step c lat0) (c_init c) js =
    fold_left (lfsr (c_poly c)) (msg_bits (c_refin c) (concat (map (opt_bytes (c_bigendian c)) js))) (c_init c)) as Ef.
  { induction js as [|j js IH] using rev_ind; [reflexivity|]. rewrite final_snoc. unfold crcw_step at 1. cbn [fst].
    rewrite En by (rewrite IH; apply cyc_len; assumption). rewrite IH, map_app, concat_app. cbn [map concat].
    rewrite app_nil_r, msg_bits_app, fold_left_app. reflexivity. }
  set (bytes := concat (map (opt_bytes (c_bigendian c)) (if lat0 then is ++ [i] else is))).
  destruct (serial_remainder (c_poly c) Hp Hhd (msg_bits (c_refin c) bytes) (c_init c) Hi) as [HL HR].
  assert (snd (crcw_step c lat0 (final (crcw_step c lat0) (c_init c) is) i) =
          crc_output c (fold_left (lfsr (c_poly c)) (msg_bits (c_refin c) bytes) (c_init c))) as ->.
  { unfold crcw_step at 1. cbn [snd]. f_equal. unfold bytes. destruct lat0; [|apply Ef]. rewrite <- Ef, final_snoc. reflexivity. }
  unfold crc_output. rewrite Hpal. apply c_out; assumption.
Qed.

(** * Examples *)
Definition bits (w : nat) (v : N) : list bool := map (fun i => N.testbit v (N.of_nat i)) (seq 0 w).
(** "123456789" and the CRC_32 configuration of crcPoly.py *)
Definition check_msg : list (list bool) := map (bits 8) [49; 50; 51; 52; 53; 54; 55; 56; 57]%N.
Definition crc32 : crc_cfg := mk_cfg (bits 32 79764919) (bits 32 4294967295) true true (bits 32 4294967295) false.
(** CRC-16 polynomial 0x1021 with a XOROUT which is not a palindrome *)
Definition crc16_odd : crc_cfg := mk_cfg (bits 16 4129) (bits 16 0) false false (bits 16 1) false.
Definition crc16_odd_ref : crc_cfg := mk_cfg (bits 16 4129) (bits 16 0) true true (bits 16 1) false.

Lemma is_crc_unique poly init x refin refout bytes v1 v2 :
  is_crc poly init x refin refout bytes v1 -> is_crc poly init x refin refout bytes v2 -> v1 = v2.
Proof.
  intros (r1 & L1 & R1 & V1 & E1) (r2 & L2 & R2 & V2 & E2).
  pose proof (remainder_unique poly _ _ _ R1 R2) as E.
  apply nth_ext with (d := false) (d' := false); [congruence|]. intros n Hn. rewrite V1 in Hn.
  rewrite E1, E2 by assumption. f_equal. rewrite <- !num_testbit, E. reflexivity.
Qed.

Lemma not_crc c bytes v : hd false (c_poly c) = true -> length (c_init c) = length (c_poly c) -> length (c_xorout c) = length (c_poly c) ->
  (let s := crc_next c (c_init c) (length bytes) bytes in
   v <> xor_bits (if c_refout c then rev s else s) (c_xorout c)) ->
  ~ is_crc (c_poly c) (c_init c) (c_xorout c) (c_refin c) (c_refout c) (word_bytes (c_bigendian c) bytes) v.
Proof.
  intros Hhd Hi Hx Hv H. apply Hv. refine (is_crc_unique _ _ _ _ _ _ _ _ H _).
  assert (0 < length (c_poly c)) as Hp by (destruct (c_poly c); [discriminate|simpl; lia]).
  cbv zeta. rewrite next_serial; [|assumption|assumption|right; reflexivity]. rewrite firstn_all.
  destruct (serial_remainder (c_poly c) Hp Hhd (msg_bits (c_refin c) (word_bytes (c_bigendian c) bytes)) (c_init c) Hi) as [HL HR].
  apply c_out; assumption.
Qed.

(** an even polynomial: x^2 + x, constant term 0 *)
Definition even_poly : list bool := [false; true].

Lemma c25_even : exists (poly state data : list bool),
  hd false poly = false /\ length state = length poly /\
  ~ is_remainder (length poly) (poly_of poly) (msg_poly (length poly) state (rev data))
      (num (apply_matrix (build_matrix (length data) poly) data state)).
Proof.
  exists even_poly, [false; false], [true]. split; [reflexivity|]. split; [reflexivity|].
  intros H. assert (is_remainder (length even_poly) (poly_of even_poly) (msg_poly (length even_poly) [false; false] (rev [true])) 2%N) as H2.
  { split; [reflexivity|]. exists 1%N. reflexivity. }
  pose proof (remainder_unique even_poly _ _ _ H H2) as E. vm_compute in E. discriminate.
Qed.

Lemma c25_comb_refuted : exists (c : crc_cfg) (bytes : list (list bool)),
  hd false (c_poly c) = true /\ length (c_init c) = length (c_poly c) /\ length (c_xorout c) = length (c_poly c) /\
  ~ is_crc (c_poly c) (c_init c) (c_xorout c) (c_refin c) (c_refout c) (word_bytes (c_bigendian c) bytes) (crc_comb c bytes).
Proof.
  exists crc16_odd_ref, check_msg. do 3 (split; [reflexivity|]). apply not_crc; [reflexivity|reflexivity|reflexivity|].
  vm_compute. discriminate.
Qed.

Lemma c26_refuted : exists (c : crc_cfg) (word : list (list bool)),
  hd false (c_poly c) = true /\ length (c_init c) = length (c_poly c) /\ length (c_xorout c) = length (c_poly c) /\
  c_refout c = false /\
  ~ is_crc (c_poly c) (c_init c) (c_xorout c) (c_refin c) (c_refout c) (word_bytes (c_bigendian c) word)
      (snd (crcw_step c false (final (crcw_step c false) (c_init c) [Some word]) None)).
Proof.
  exists crc16_odd, check_msg. do 4 (split; [reflexivity|]). apply not_crc; [reflexivity|reflexivity|reflexivity|].
  vm_compute. discriminate.
Qed.

Definition ex_pre : list crc_in :=
  [mk_ci true (firstn 4 check_msg) [true; true; false; false] true; mk_ci false (firstn 4 check_msg) [false; true; false; false] false].
Definition ex_frame : list crc_in :=
  [mk_ci true (firstn 4 check_msg) [true; true; true; true] false; mk_ci true (firstn 4 (skipn 4 check_msg)) [true; true; true; true] false].
Definition ex_last : crc_in := mk_ci true (skipn 8 check_msg ++ firstn 3 check_msg) [true; false; false; false] true.

Lemma c26_ex :
  Forall good_in (ex_pre ++ ex_frame ++ [ex_last]) /\ at_frame_start ex_pre /\
  Forall (fun i => ci_vld i && ci_last i = false) ex_frame /\ ci_vld ex_last = true /\
  concat (map cyc_bytes (ex_frame ++ [ex_last])) = check_msg /\
  num (snd (crc_step crc32 [] (final (crc_step crc32 []) (c_init crc32, []) (ex_pre ++ ex_frame ++ [ex_last])) ex_last)) = 3421780262%N.
Proof.
  split; [|split; [|split; [|split; [|split]]]].
  - unfold ex_pre, ex_frame. cbn [app]. repeat (apply Forall_cons); [| | | | |apply Forall_nil]; intros Hv; try discriminate Hv; (split; [reflexivity|]).
    + exists 1. split; [reflexivity|simpl; lia].
    + exists 3. split; [reflexivity|simpl; lia].
    + exists 3. split; [reflexivity|simpl; lia].
    + exists 0. split; [reflexivity|simpl; lia].
  - intros a i b E Hv Hb. destruct a as [|x a]; [injection E as <- _; reflexivity|].
    destruct a as [|y a]; [injection E as _ <- _; discriminate Hv|]. destruct a; discriminate E.
  - repeat constructor.
  - reflexivity.
  - reflexivity.
  - vm_compute. reflexivity.
Qed.

(** * The catalogue *)
Definition cfg_ok (c : crc_cfg) : bool :=
  (hd false (c_poly c) && (length (c_init c) =? length (c_poly c)) && (length (c_xorout c) =? length (c_poly c)) &&
   (forallb (fun b => b) (c_xorout c) || forallb negb (c_xorout c)))%bool.
Lemma cfg_ok_spec c : cfg_ok c = true ->
  hd false (c_poly c) = true /\ length (c_init c) = length (c_poly c) /\ length (c_xorout c) = length (c_poly c) /\ uniform (c_xorout c).
Proof.
  unfold cfg_ok. intros H. apply andb_prop in H. destruct H as [H H4]. apply andb_prop in H. destruct H as [H H3].
  apply andb_prop in H. destruct H as [H1 H2]. apply Nat.eqb_eq in H2, H3. repeat split; try assumption.
  apply orb_prop in H4. clear - H4. generalize dependent (c_xorout c). intros l [H|H].
  - exists true. induction l as [|b l IH]; [reflexivity|]. simpl in H. apply andb_prop in H. destruct H as [-> H]. simpl. f_equal. apply IH. exact H.
  - exists false. induction l as [|b l IH]; [reflexivity|]. simpl in H. apply andb_prop in H. destruct H as [Hb H]. destruct b; [discriminate|]. simpl. f_equal. apply IH. exact H.
Qed.
Lemma uniform_rev l : uniform l -> rev l = l.
Proof. intros [b ->]. apply rev_repeat. Qed.
Lemma catalogue_ok cfg be : In cfg catalogue -> cfg_ok (cfg be) = true /\ c_bigendian (cfg be) = be.
Proof.
  intros H. assert (Forall (fun f : bool -> crc_cfg => forall b, cfg_ok (f b) = true /\ c_bigendian (f b) = b) catalogue) as G.
  { unfold catalogue. repeat (apply Forall_cons; [intros b; split; [vm_compute|]; reflexivity|]). apply Forall_nil. }
  rewrite Forall_forall in G. exact (G cfg H be).
Qed.

Lemma cat_comb : forall (cfg : bool -> crc_cfg) (be : bool) (bytes : list (list bool)), In cfg catalogue ->
  let c := cfg be in
  is_crc (c_poly c) (c_init c) (c_xorout c) (c_refin c) (c_refout c) (word_bytes be bytes) (crc_comb c bytes).
Proof.
  intros cfg be bytes H c. destruct (catalogue_ok cfg be H) as [Hok Hb]. fold c in Hok, Hb.
  destruct (cfg_ok_spec c Hok) as (H1 & H2 & H3 & H4). rewrite <- Hb at 1. apply c25_comb; auto.
Qed.
Lemma cat_words : forall (cfg : bool -> crc_cfg) (be lat0 : bool)
    (is : list (option (list (list bool)))) (i : option (list (list bool))), In cfg catalogue ->
  let c := cfg be in
  is_crc (c_poly c) (c_init c) (c_xorout c) (c_refin c) (c_refout c)
         (concat (map (opt_bytes be) (if lat0 then is ++ [i] else is)))
         (snd (crcw_step c lat0 (final (crcw_step c lat0) (c_init c) is) i)).
Proof.
  intros cfg be lat0 is i H c. destruct (catalogue_ok cfg be H) as [Hok Hb]. fold c in Hok, Hb.
  destruct (cfg_ok_spec c Hok) as (H1 & H2 & H3 & H4). pose proof (c26_words c lat0 is i H1 H2 H3 (uniform_rev _ H4)) as G.
  rewrite Hb in G. exact G.
Qed.
Lemma cat_frames : forall (cfg : bool -> crc_cfg) (u t0 : list bool) (pre frame : list crc_in) (lst nxt : crc_in),
  In cfg catalogue ->
  Forall good_in (pre ++ frame ++ [lst]) -> at_frame_start pre ->
  Forall (fun i => ci_vld i && ci_last i = false) frame -> ci_vld lst = true ->
  let c := cfg false in
  is_crc (c_poly c) (c_init c) (c_xorout c) (c_refin c) (c_refout c) (concat (map cyc_bytes (frame ++ [lst])))
         (snd (crc_step c u (final (crc_step c u) (c_init c, t0) (pre ++ frame ++ [lst])) nxt)).
Proof.
  intros cfg u t0 pre frame lst nxt H Hg Ha Hf Hv c. destruct (catalogue_ok cfg false H) as [Hok Hb]. fold c in Hok, Hb.
  destruct (cfg_ok_spec c Hok) as (H1 & H2 & H3 & H4). apply c26; auto. apply uniform_rev. exact H4.
Qed.
