From Verif Require Import Base BaseFacts AddrModel AddrSpec.
Local Open Scope N_scope.

Lemma isPow2N_spec x : isPow2N x = true <-> exists k, x = 2 ^ k.
Proof.
  unfold isPow2N. rewrite andb_true_iff, negb_true_iff, N.eqb_neq, N.eqb_eq. split.
  - intros [H0 H]. exists (N.log2 x). pose proof (N.log2_spec x ltac:(lia)) as [L1 L2].
    destruct (N.eq_dec (2 ^ N.log2 x) x) as [E|E]; [symmetry; exact E|]. exfalso.
    assert (N.testbit (N.land x (x - 1)) (N.log2 x) = true) as T; [|rewrite H, N.bits_0 in T; discriminate].
    rewrite N.land_spec, N.bit_log2 by exact H0. cbn [andb].
    assert (2 ^ N.log2 x <> 0) by (apply N.pow_nonzero; lia).
    replace (N.log2 x) with (N.log2 (x - 1)); [apply N.bit_log2; lia|]. apply N.log2_unique; [lia|split; lia].
  - intros [k ->]. assert (2 ^ k <> 0) as H by (apply N.pow_nonzero; lia). split; [exact H|].
    rewrite N.sub_1_r, <- N.ones_equiv. rewrite N.land_ones. apply N.mod_same. exact H.
Qed.

Lemma size_pow k : N.size (2 ^ k - 1) = k.
Proof.
  destruct (N.eq_dec k 0) as [->|Hk]; [reflexivity|].
  assert (2 ^ (k - 1) <> 0) as H by (apply N.pow_nonzero; lia).
  assert (2 ^ k = 2 * 2 ^ (k - 1)) as E by (rewrite <- N.pow_succ_r'; f_equal; lia).
  rewrite N.size_log2 by lia. rewrite (N.log2_unique (2 ^ k - 1) (k - 1)); [lia|lia|]. replace (N.succ (k - 1)) with k by lia. lia.
Qed.

Lemma from_py_some w v x : from_py w v = Some x -> x = v /\ v < 2 ^ w.
Proof. unfold from_py. destruct (N.ltb_spec v (2 ^ w)); [|discriminate]. intros [= <-]. auto. Qed.

Lemma aligned_range a o k : o mod 2 ^ k = 0 -> (N.shiftr a k =? N.shiftr o k) = inRange a o (o + 2 ^ k).
Proof.
  intros Ho. rewrite !N.shiftr_div_pow2. unfold inRange. assert (2 ^ k <> 0) as H by (apply N.pow_nonzero; lia).
  pose proof (N.div_mod a (2 ^ k) H) as Da. pose proof (N.mod_lt a (2 ^ k) H) as Ma. pose proof (N.div_mod o (2 ^ k) H) as Do. rewrite Ho in Do.
  revert Da Ma Do H. generalize (2 ^ k) (a / 2 ^ k) (a mod 2 ^ k) (o / 2 ^ k). clear. intros P q r z Da Ma Do H.
  apply eq_true_iff_eq. rewrite andb_true_iff, N.eqb_eq, N.leb_le, N.ltb_lt. split; [intros ->; lia|].
  intros [H1 H2]. assert (q < z + 1 /\ z < q + 1) as [G1 G2]; [|lia]. split; (apply (N.mul_lt_mono_pos_l P); [lia|]); lia.
Qed.

Definition item_guard (m : map_item) : Prop := block (mi_in m) (mi_size m) -> block (mi_out m) (mi_size m) -> mi_out m = 0.

Lemma case_ok AW m a en v : a < 2 ^ AW -> mi_out m + mi_size m <= 2 ^ AW -> 0 < mi_size m -> item_guard m -> remap_case AW m a = Some (en, v) ->
  en = inRange a (mi_in m) (mi_in m + mi_size m) /\ (en = true -> v = a + mi_out m - mi_in m).
Proof.
  intros Ha Hf Hs Hg H. unfold remap_case in H.
  destruct ((mi_in m mod mi_size m =? 0) && isPow2N (mi_size m)) eqn:EI.
  - apply andb_prop in EI. destruct EI as [EI EP]. apply N.eqb_eq in EI. pose proof EP as EP'. apply isPow2N_spec in EP. destruct EP as [k Ek].
    rewrite Ek in *. rewrite size_pow in H. destruct ((0 <? k) && (k <? AW)) eqn:EL; [|discriminate].
    destruct (from_py (AW - k) (N.shiftr (mi_in m) k)) as [hi|] eqn:F1; [|discriminate]. apply from_py_some in F1. destruct F1 as [-> F1].
    rewrite EP' in H. rewrite andb_true_r in H.
    assert (forall A B : Prop, A -> (A -> B) -> A /\ B) as Hand by auto.
    assert (2 ^ k <> 0) as Hk0 by (apply N.pow_nonzero; lia).
    destruct (N.eqb_spec (mi_out m mod 2 ^ k) 0) as [EO|EO].
    + assert (mi_out m = 0) as E0. { apply Hg; split; try assumption; rewrite ?Ek; try (exists k; reflexivity); assumption. }
      destruct (from_py (AW - k) (mi_out m)) as [top|] eqn:F2; [|discriminate]. apply from_py_some in F2. destruct F2 as [-> _].
      injection H as <- <-. rewrite (aligned_range a (mi_in m) k EI). split; [reflexivity|]. intros E. rewrite E0.
      rewrite <- (aligned_range a (mi_in m) k EI) in E. apply N.eqb_eq in E. rewrite !N.shiftr_div_pow2 in E.
      pose proof (N.div_mod a (2 ^ k) Hk0) as Da. pose proof (N.div_mod (mi_in m) (2 ^ k) Hk0) as Do. rewrite EI in Do. rewrite E in Da. clear -Da Do.
      revert Da Do. generalize (a mod 2 ^ k) (2 ^ k * (mi_in m / 2 ^ k)). intros; lia.
    + destruct (from_py AW (mi_out m)) as [o|] eqn:F2; [|discriminate]. apply from_py_some in F2. destruct F2 as [-> F2].
      injection H as <- <-. rewrite (aligned_range a (mi_in m) k EI). split; [reflexivity|]. intros E.
      rewrite <- (aligned_range a (mi_in m) k EI) in E. apply N.eqb_eq in E. rewrite !N.shiftr_div_pow2 in E.
      pose proof (N.div_mod a (2 ^ k) Hk0) as Da. pose proof (N.div_mod (mi_in m) (2 ^ k) Hk0) as Do. pose proof (N.mod_lt a (2 ^ k) Hk0) as Ma. rewrite EI in Do. rewrite E in Da.
      rewrite N.mod_small by lia. clear -Da Do.
      revert Da Do. generalize (a mod 2 ^ k) (2 ^ k * (mi_in m / 2 ^ k)). intros; lia.
  - destruct (from_py AW (mi_in m)) as [lo|] eqn:F1; [|discriminate]. destruct (from_py AW (mi_in m + mi_size m)) as [hi|] eqn:F2; [|discriminate].
    apply from_py_some in F1. destruct F1 as [-> F1]. apply from_py_some in F2. destruct F2 as [-> F2].
    clear EI. destruct (N.eqb_spec (mi_in m) (mi_out m)) as [E|E].
    { injection H as <- <-. split; [reflexivity|]. lia. }
    destruct (N.ltb_spec (mi_in m) (mi_out m)) as [L|L].
    + destruct (from_py AW (mi_out m - mi_in m)) as [d|] eqn:F3; [|discriminate]. apply from_py_some in F3. destruct F3 as [-> F3].
      injection H as <- <-. split; [reflexivity|]. intros R. unfold inRange in R. apply andb_prop in R. destruct R as [R1 R2]. apply N.leb_le in R1. apply N.ltb_lt in R2.
      rewrite N.mod_small by lia. lia.
    + destruct (from_py AW (mi_in m - mi_out m)) as [d|] eqn:F3; [|discriminate]. apply from_py_some in F3. destruct F3 as [-> F3].
      injection H as <- <-. split; [reflexivity|]. intros R. unfold inRange in R. apply andb_prop in R. destruct R as [R1 R2]. apply N.leb_le in R1. apply N.ltb_lt in R2.
      replace (a + 2 ^ AW - (mi_in m - mi_out m)) with ((a + mi_out m - mi_in m) + 1 * 2 ^ AW) by lia.
      rewrite N.mod_add by lia. rewrite N.mod_small by lia. reflexivity.
Qed.

Lemma c38 : forall (AW : N) (mm : list map_item) (a v : N),
  a < 2 ^ AW -> mem_map_ok mm 0 = true -> targets_fit AW mm ->
  (forall m, In m mm -> block (mi_in m) (mi_size m) -> block (mi_out m) (mi_size m) -> mi_out m = 0) ->
  translate_addr_signal AW mm a = Some v -> v = translate_addr_val mm a.
Proof.
  intros AW mm a v Ha Hok. assert (forall m, In m mm -> 0 < mi_size m) as Hs.
  { revert Hok. generalize 0 at 1. induction mm as [|m mm IH]; intros e He q Hq; [destruct Hq|]. cbn [mem_map_ok] in He.
    apply andb_prop in He. destruct He as [He1 He2]. apply andb_prop in He1. destruct He1 as [He1 _]. apply N.ltb_lt in He1. destruct Hq as [<-|Hq]; [exact He1|eapply IH; eassumption]. }
  clear Hok. revert v. induction mm as [|m mm IH]; intros v Hf Hg H; cbn [translate_addr_signal translate_addr_val] in *; [injection H as <-; reflexivity|].
  destruct (remap_case AW m a) as [[en w]|] eqn:EC; [|discriminate]. destruct (translate_addr_signal AW mm a) as [r|] eqn:ER; [|discriminate].
  injection H as <-. destruct (case_ok AW m a en w Ha (Hf m (or_introl eq_refl)) (Hs m (or_introl eq_refl)) (Hg m (or_introl eq_refl)) EC) as [E1 E2].
  rewrite <- E1. destruct en; [apply E2; reflexivity|]. apply IH; auto; intros q Hq; [apply Hs|apply Hf|apply Hg]; right; exact Hq.
Qed.

Lemma c38_bad : exists (AW : N) (mm : list map_item) (a v : N),
  a < 2 ^ AW /\ mem_map_ok mm 0 = true /\ targets_fit AW mm /\ translate_addr_signal AW mm a = Some v /\ v <> translate_addr_val mm a.
Proof.
  exists 32, [mk_mi 4096 4096 8192], 4100, 33554436. split; [reflexivity|]. split; [reflexivity|].
  split; [intros m [<-|[]]; vm_compute; discriminate|]. vm_compute. split; [reflexivity|discriminate].
Qed.

(** * C39 *)
Lemma log2ceil_pow k : 0 < k -> log2ceilN (2 ^ k - 1) = k.
Proof.
  intros Hk. unfold log2ceilN. destruct (N.eq_dec k 1) as [->|H1]; [reflexivity|].
  assert (4 <= 2 ^ k) as H4. { change 4 with (2 ^ 2). apply N.pow_le_mono_r; lia. }
  destruct (N.eqb_spec (2 ^ k - 1) 0); [lia|]. destruct (N.eqb_spec (2 ^ k - 1) 1); [lia|]. cbn [orb].
  apply N.log2_up_unique; [lia|]. assert (2 ^ k = 2 * 2 ^ (k - 1)) as E by (rewrite <- N.pow_succ_r'; f_equal; lia).
  rewrite <- N.sub_1_r. lia.
Qed.
Lemma pow_div i j : i <= j -> 2 ^ j / 2 ^ i = 2 ^ (j - i).
Proof. intros H. replace j with (j - i + i) at 1 by lia. rewrite N.pow_add_r. apply N.div_mul. apply N.pow_nonzero. lia. Qed.
Lemma pow_eqb i j : (2 ^ i =? 2 ^ j) = (i =? j).
Proof. apply eq_true_iff_eq. rewrite !N.eqb_eq. split; [apply N.pow_inj_r; lia|intros ->; reflexivity]. Qed.
Lemma pow_ltb i j : (2 ^ i <? 2 ^ j) = (i <? j).
Proof. apply eq_true_iff_eq. rewrite !N.ltb_lt. symmetry. apply N.pow_lt_mono_r_iff. lia. Qed.
Lemma align_pow i j : align_bits (2 ^ i) (2 ^ j) = if i <? j then j - i else i - j.
Proof.
  unfold align_bits. rewrite pow_eqb, pow_ltb. destruct (N.eqb_spec i j) as [->|E]; [destruct (j <? j); lia|].
  destruct (N.ltb_spec i j); rewrite pow_div by lia; apply log2ceil_pow; lia.
Qed.
Lemma isPow2N_pow k : isPow2N (2 ^ k) = true.
Proof. apply isPow2N_spec. exists k. reflexivity. Qed.

Lemma c39 : forall (i j src_w dst_w off src v : N),
  let src_step := 2 ^ i in let dst_step := 2 ^ j in
  src < 2 ^ src_w -> (src_step = dst_step -> src_w <= dst_w) ->
  src * src_step / dst_step + off < 2 ^ dst_w ->
  propagate src_step dst_step src_w dst_w off src = Some v ->
  v = src * src_step / dst_step + off.
Proof.
  intros i j src_w dst_w off src v src_step dst_step Hs He Hf H. unfold src_step, dst_step in *. clear src_step dst_step.
  unfold propagate in H. rewrite !isPow2N_pow, pow_eqb, pow_ltb, align_pow in H. cbn [andb] in H.
  assert (2 ^ i <> 0) as Hi by (apply N.pow_nonzero; lia). assert (2 ^ j <> 0) as Hj by (apply N.pow_nonzero; lia).
  assert (forall x, x = src * 2 ^ i / 2 ^ j -> (if off =? 0 then x mod 2 ^ dst_w else (x mod 2 ^ dst_w + off) mod 2 ^ dst_w) = src * 2 ^ i / 2 ^ j + off) as K.
  { intros x ->. set (y := src * 2 ^ i / 2 ^ j) in *. clearbody y. rewrite (N.mod_small y) by lia. destruct (N.eqb_spec off 0) as [->|]; [lia|]. apply N.mod_small. exact Hf. }
  destruct (N.eqb_spec i j) as [->|E].
  - injection H as <-. apply K. rewrite N.div_mul by exact Hj. reflexivity.
  - destruct (N.ltb_spec j i) as [L|L].
    + destruct (N.ltb_spec i j); [lia|]. destruct (src_w + (i - j) <=? dst_w); [|discriminate]. injection H as <-. apply K.
      replace i with (i - j + j) at 2 by lia. rewrite N.pow_add_r, N.mul_assoc, N.div_mul by exact Hj. reflexivity.
    + destruct (N.ltb_spec i j); [|lia]. destruct (src_w - (j - i) <=? dst_w); [|discriminate]. injection H as <-. apply K.
      rewrite N.shiftr_div_pow2. replace j with (j - i + i) at 2 by lia. rewrite N.pow_add_r, N.div_mul_cancel_r; [reflexivity|apply N.pow_nonzero; lia|exact Hi].
Qed.

Lemma ok_lower mm e : mem_map_ok mm e = true -> forall m, In m mm -> e <= mi_in m /\ 0 < mi_size m.
Proof.
  revert e. induction mm as [|x mm IH]; intros e H m Hm; [destruct Hm|]. cbn [mem_map_ok] in H.
  apply andb_true_iff in H as [H H2]. apply andb_true_iff in H as [H0 H1].
  apply N.ltb_lt in H0. apply N.leb_le in H1. destruct Hm as [<-|Hm]; [now split|].
  destruct (IH _ H2 m Hm). split; [lia|assumption].
Qed.
Lemma c38_val (mm : list map_item) (a : N) : mem_map_ok mm 0 = true ->
  (forall m, In m mm -> inside m a -> translate_addr_val mm a = mi_out m + (a - mi_in m)) /\
  ((forall m, In m mm -> ~ inside m a) -> translate_addr_val mm a = a).
Proof.
  generalize 0. induction mm as [|x mm IH]; intros e H; [split; [intros m []|reflexivity]|].
  cbn [mem_map_ok] in H. apply andb_true_iff in H as [H H2]. destruct (IH _ H2) as [IH1 IH2].
  cbn [translate_addr_val]. unfold inRange.
  destruct (N.leb_spec (mi_in x) a) as [L|L], (N.ltb_spec a (mi_in x + mi_size x)) as [U|U]; cbn [andb].
  - split.
    + intros m [<-|Hm] Hi; [lia|]. destruct (ok_lower _ _ H2 m Hm). unfold inside in Hi. lia.
    + intros Hn. exfalso. apply (Hn x); [now left|]. split; assumption.
  - split; [intros m [<-|Hm] Hi; [unfold inside in Hi; lia|now apply IH1]|intros Hn; apply IH2; intros m Hm; apply Hn; now right].
  - split; [intros m [<-|Hm] Hi; [unfold inside in Hi; lia|now apply IH1]|intros Hn; apply IH2; intros m Hm; apply Hn; now right].
  - split; [intros m [<-|Hm] Hi; [unfold inside in Hi; lia|now apply IH1]|intros Hn; apply IH2; intros m Hm; apply Hn; now right].
Qed.
