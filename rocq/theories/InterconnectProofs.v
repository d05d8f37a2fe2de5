From Verif Require Import Base BaseFacts InterconnectModel InterconnectSpec.
From Coq Require Import Sorting.Permutation Sorting.Sorted.
Local Open Scope Z_scope.

Lemma Forall2_impl {A B} (P Q : A -> B -> Prop) l l' : (forall a b, P a b -> Q a b) -> Forall2 P l l' -> Forall2 Q l l'.
Proof. intros H. induction 1; constructor; auto. Qed.

Lemma is_pow2_spec s : is_pow2 s = true <-> pow2_size s.
Proof.
  unfold is_pow2, pow2_size. rewrite andb_true_iff, negb_true_iff, Z.eqb_neq, Z.eqb_eq. split.
  - intros [H0 H].
    assert (0 < s) as Hp.
    { destruct (Z_lt_le_dec 0 s) as [|Hn]; [assumption|]. exfalso. assert (Z.land s (s - 1) < 0); [|lia]. apply Z.land_neg. lia. }
    exists (Z.log2 s). split; [apply Z.log2_nonneg|].
    pose proof (Z.log2_spec s Hp) as [L1 L2]. destruct (Z_le_lt_eq_dec _ _ L1) as [L|E]; [|symmetry; exact E]. exfalso.
    assert (Z.testbit (Z.land s (s - 1)) (Z.log2 s) = true) as T; [|rewrite H, Z.bits_0 in T; discriminate].
    rewrite Z.land_spec, Z.bit_log2 by exact Hp. cbn [andb].
    replace (Z.log2 s) with (Z.log2 (s - 1)); [apply Z.bit_log2; pose proof (Z.log2_nonneg s); lia|].
    apply Z.log2_unique; [apply Z.log2_nonneg|lia].
  - intros (k & Hk & ->). split; [pose proof (Z.pow_pos_nonneg 2 k); lia|].
    rewrite Z.sub_1_r, <- Z.ones_equiv. rewrite Z.land_ones by exact Hk. apply Z_mod_same_full.
Qed.

Lemma pow2_pos s : pow2_size s -> 0 < s.
Proof. intros (k & Hk & ->). apply Z.pow_pos_nonneg; lia. Qed.

Lemma alloc_spec : forall cs m l, 0 <= m -> alloc cs m = Some l ->
  Forall2 (fun c r => snd r = snd c /\ pow2_size (snd r) /\ fst r mod snd r = 0 /\
                      match fst c with Some a => fst r = a | None => m <= fst r end) cs l.
Proof.
  induction cs as [|[ad sz] cs IH]; intros m l Hm H; cbn [alloc] in H.
  - injection H as <-. constructor.
  - destruct (is_pow2 sz) eqn:P; [|discriminate]. apply is_pow2_spec in P. pose proof (pow2_pos _ P) as Hs.
    set (pl := match ad with None => _ | Some a => _ end) in H. destruct pl as [a|] eqn:EP; [|discriminate].
    destruct (alloc cs (Z.max m (a + sz))) as [l'|] eqn:EA; [|discriminate]. injection H as <-.
    assert (a mod sz = 0 /\ match ad with Some x => a = x | None => m <= a end) as [Hal Hx].
    { unfold pl in EP. destruct ad as [x|].
      - destruct (Z.eqb_spec (x mod sz) 0); [|discriminate]. injection EP as <-. auto.
      - injection EP as <-. destruct (Z.eqb_spec (m mod sz) 0) as [E|E]; [split; [exact E|lia]|].
        split; [apply Z_mod_mult|]. pose proof (Z.div_mod m sz ltac:(lia)) as D. pose proof (Z.mod_pos_bound m sz Hs) as B. nia. }
    constructor; [cbn [fst snd]; auto|].
    pose proof (IH (Z.max m (a + sz)) l' ltac:(lia) EA) as F. eapply Forall2_impl; [|exact F]. cbv beta.
    intros c r (G1 & G2 & G3 & G4). repeat split; auto. destruct (fst c); [exact G4|lia].
Qed.

Lemma insert_perm r l : Permutation (insert_region r l) (r :: l).
Proof.
  induction l as [|x l IH]; [reflexivity|]. cbn [insert_region]. destruct (fst r <=? fst x); [reflexivity|].
  rewrite IH. apply perm_swap.
Qed.
Lemma sort_perm l : Permutation (sort_regions l) l.
Proof. induction l as [|x l IH]; [reflexivity|]. cbn [sort_regions fold_right]. fold (sort_regions l). rewrite insert_perm. constructor. exact IH. Qed.
Definition rle (a b : region) := fst a <= fst b.
Lemma insert_sorted r l : StronglySorted rle l -> StronglySorted rle (insert_region r l).
Proof.
  induction 1 as [|x l S IH F]; cbn [insert_region]; [repeat constructor|].
  destruct (Z.leb_spec (fst r) (fst x)) as [E|E].
  - constructor; [constructor; assumption|]. constructor; [exact E|]. eapply Forall_impl; [|exact F]. unfold rle. intros; lia.
  - constructor; [exact IH|]. apply Forall_forall. intros y Hy. apply (Permutation_in _ (insert_perm r l)) in Hy. destruct Hy as [<-|Hy]; [unfold rle; lia|].
    rewrite Forall_forall in F. apply F. exact Hy.
Qed.
Lemma sort_sorted l : StronglySorted rle (sort_regions l).
Proof. induction l as [|x l IH]; [constructor|]. apply insert_sorted. exact IH. Qed.

(** disjointness does not depend on the order *)
Definition before (a b : region) := fst a + snd a <= fst b.
Lemma no_coll_spec : forall l o, Forall (fun r => 0 < snd r) l ->
  no_collision l (o - 1) = true <-> (StronglySorted before l /\ Forall (fun r => o <= fst r) l).
Proof.
  induction l as [|[a s] l IH]; intros o Hp; cbn [no_collision].
  - split; [intros _; split; constructor|reflexivity].
  - inversion Hp as [|? ? Hs Hp']; subst. cbn [snd] in Hs. rewrite Z.geb_leb. destruct (Z.leb_spec a (o - 1)) as [E|E].
    + split; [discriminate|]. intros [_ F]. inversion F; subst. cbn [fst] in *. lia.
    + rewrite IH by exact Hp'. split.
      * intros [S F]. split.
        -- constructor; [exact S|]. eapply Forall_impl; [|exact F]. unfold before. cbn. intros; lia.
        -- constructor; [cbn; lia|]. eapply Forall_impl; [|exact F]. cbn. intros; lia.
      * intros [S F]. inversion S as [|? ? S' F']; subst. split; [exact S'|]. eapply Forall_impl; [|exact F']. unfold before. cbn. intros; lia.
Qed.

Lemma assert_spec l o : Forall (fun r => 0 < snd r) l -> no_collision l (o - 1) = assert_non_overlapping l o.
Proof.
  revert o. induction l as [|[a s] l IH]; intros o Hp; [reflexivity|]. cbn [no_collision assert_non_overlapping].
  inversion Hp as [|? ? Hs Hp']; subst. rewrite !Z.geb_leb. destruct (Z.leb_spec a (o - 1)), (Z.leb_spec o a); try lia; try reflexivity. cbn [andb]. apply IH. exact Hp'.
Qed.

(** pairwise non-intersecting, position-wise *)
Definition apart (a b : region) := before a b \/ before b a.
Lemma apart_iff a b : 0 < snd a -> 0 < snd b -> (apart a b <-> forall x, ~ (in_region a x /\ in_region b x)).
Proof.
  unfold apart, before, in_region. intros Ha Hb. split; [intros H x; lia|].
  intros H. pose proof (H (fst a)) as H1. pose proof (H (fst b)) as H2. lia.
Qed.
Lemma disjoint_pairs l : Forall (fun r => 0 < snd r) l -> (disjoint_regions l <-> ForallOrdPairs apart l).
Proof.
  intros Hp. split.
  - induction Hp as [|r l Hr Hp IH]; intros D; [constructor|]. constructor.
    + apply Forall_forall. intros q Hq. apply In_nth_error in Hq. destruct Hq as [n Hn].
      rewrite Forall_forall in Hp. assert (In q l) by (eapply nth_error_In; exact Hn).
      apply apart_iff; auto. intros x [X1 X2]. specialize (D 0%nat (S n) r q x eq_refl Hn X1 X2). discriminate.
    + apply IH. intros i j a b x H1 H2 X1 X2. specialize (D (S i) (S j) a b x H1 H2 X1 X2). congruence.
  - induction Hp as [|r l Hr Hp IH]; intros F i j a b x H1 H2 X1 X2; [destruct i; discriminate|].
    inversion F as [|? ? F1 F2]; subst. rewrite Forall_forall in Hp, F1.
    destruct i as [|i], j as [|j]; cbn [nth_error] in *.
    + reflexivity.
    + injection H1 as <-. apply nth_error_In in H2. destruct (proj1 (apart_iff r b Hr (Hp b H2)) (F1 b H2) x). auto.
    + injection H2 as <-. apply nth_error_In in H1. destruct (proj1 (apart_iff r a Hr (Hp a H1)) (F1 a H1) x). auto.
    + f_equal. eapply IH; eassumption.
Qed.

Lemma fop_perm (R : region -> region -> Prop) l l' : (forall a b, R a b -> R b a) -> Permutation l l' -> ForallOrdPairs R l -> ForallOrdPairs R l'.
Proof.
  intros Hs P. induction P as [|x l l' P IH|x y l|l l' l'' P1 IH1 P2 IH2]; intros F.
  - exact F.
  - inversion F as [|? ? F1 F2]; subst. constructor; [|apply IH; exact F2]. rewrite <- P. exact F1.
  - inversion F as [|? ? F1 F2]; subst. inversion F2 as [|? ? F3 F4]; subst. inversion F1; subst. constructor.
    + constructor; [apply Hs; assumption|exact F3].
    + constructor; assumption.
  - auto.
Qed.

Lemma sorted_apart l : StronglySorted rle l -> Forall (fun r => 0 < snd r) l -> (StronglySorted before l <-> ForallOrdPairs apart l).
Proof.
  induction 1 as [|x l S IH F]; intros Hp; [split; constructor|]. inversion Hp as [|? ? Hpx Hpl]; subst. split; intros H.
  - inversion H; subst. constructor; [|apply IH; assumption]. eapply Forall_impl; [|eassumption]. intros; left; assumption.
  - inversion H as [|? ? H5 H6]; subst. constructor; [apply IH; assumption|].
    apply Forall_forall. intros q Hq. rewrite !Forall_forall in *. destruct (H5 q Hq) as [B|B]; [exact B|].
    specialize (F q Hq). specialize (Hpl q Hq). unfold rle, before in *. lia.
Qed.

Lemma check_spec l : Forall (fun r => 0 < snd r) l ->
  no_collision (sort_regions l) (-1) && assert_non_overlapping (sort_regions l) 0 = true <->
  disjoint_regions l /\ Forall (fun r => 0 <= fst r) l.
Proof.
  intros Hp. assert (Forall (fun r => 0 < snd r) (sort_regions l)) as Hp' by (rewrite sort_perm; exact Hp).
  rewrite <- (assert_spec _ 0 Hp'). change (0 - 1) with (-1). rewrite andb_diag.
  change (-1) with (0 - 1). rewrite (no_coll_spec _ 0 Hp'). rewrite (disjoint_pairs l Hp).
  rewrite (sorted_apart _ (sort_sorted l) Hp').
  assert (forall a b, apart a b -> apart b a) as Hs by (unfold apart; tauto).
  pose proof (fop_perm apart _ _ Hs (sort_perm l)) as G1. pose proof (fop_perm apart _ _ Hs (Permutation_sym (sort_perm l))) as G2.
  assert (Forall (fun r : region => 0 <= fst r) (sort_regions l) <-> Forall (fun r : region => 0 <= fst r) l) as G3
    by (split; apply Permutation_Forall; [|symmetry]; apply sort_perm).
  tauto.
Qed.

Lemma c35 : forall (SLAVES : list slave_cfg) (l : list region), normalize_slaves SLAVES = Some l ->
  Forall2 respects SLAVES l /\ disjoint_regions l.
Proof.
  intros cs l H. unfold normalize_slaves in H. destruct (alloc cs 0) as [l'|] eqn:E; [|discriminate].
  destruct (no_collision _ _ && _) eqn:C; [|discriminate]. injection H as ->.
  pose proof (alloc_spec cs 0 l ltac:(lia) E) as F.
  assert (Forall (fun r => 0 < snd r) l) as Hp.
  { clear -F. induction F as [|c r cs l (H1 & H2 & _) F IH]; constructor; [apply pow2_pos; exact H2|exact IH]. }
  apply (check_spec l Hp) in C. destruct C as [D N]. split; [|exact D].
  clear -F N. induction F as [|c r cs l (H1 & H2 & H3 & H4) F IH]; constructor; inversion N; subst; [|apply IH; assumption].
  unfold respects. repeat split; auto. destruct (fst c); [exact H4|exact I].
Qed.

Lemma alloc_explicit : forall (l : list region) m,
  Forall (fun r => pow2_size (snd r) /\ fst r mod snd r = 0) l -> alloc (map (fun r => (Some (fst r), snd r)) l) m = Some l.
Proof.
  induction l as [|[a s] l IH]; intros m F; [reflexivity|]. inversion F as [|? ? [P A] F']; subst. cbn [map alloc fst snd] in *.
  apply is_pow2_spec in P. rewrite P. rewrite A. cbn [Z.eqb]. rewrite IH by exact F'. reflexivity.
Qed.
Lemma c35_complete : forall l : list region,
  (exists l', normalize_slaves (map (fun r => (Some (fst r), snd r)) l) = Some l') <->
  (Forall (fun r => pow2_size (snd r) /\ fst r mod snd r = 0 /\ 0 <= fst r) l /\ disjoint_regions l).
Proof.
  intros l. split.
  - intros [l' H]. apply c35 in H. destruct H as [F D].
    assert (l' = l) as ->.
    { clear D. revert l' F. induction l as [|[a s] l IH]; intros l' F; inversion F as [|? r ? l2 (H1 & _ & _ & _ & H2) F']; subst; [reflexivity|].
      cbn [fst snd] in *. destruct r as [ra rs]. cbn [fst snd] in *. subst. f_equal. apply IH. exact F'. }
    split; [|exact D]. apply Forall_forall. intros r Hr. clear D.
    revert Hr. assert (forall k, Forall2 respects (map (fun r => (Some (fst r), snd r)) k) k -> In r k -> pow2_size (snd r) /\ fst r mod snd r = 0 /\ 0 <= fst r) as G; [|apply G; exact F].
    induction k as [|q k IH]; intros F2 Hr; [destruct Hr|]. inversion F2 as [|? ? ? ? (H1 & H2 & H3 & H4 & _) F']; subst. destruct Hr as [->|Hr]; auto.
  - intros [F D]. exists l. unfold normalize_slaves. rewrite alloc_explicit.
    + assert (Forall (fun r => 0 < snd r) l) as Hp by (eapply Forall_impl; [|exact F]; intros r (H & _); apply pow2_pos; exact H).
      replace (no_collision _ _ && _) with true; [reflexivity|]. symmetry. apply (check_spec l Hp). split; [exact D|].
      eapply Forall_impl; [|exact F]. intros r H. apply H.
    + eapply Forall_impl; [|exact F]. intros r H. split; apply H.
Qed.

Lemma alloc_auto : forall ss m, 0 <= m -> Forall pow2_size ss ->
  exists l, alloc (map (fun s => (None, s)) ss) m = Some l /\ map snd l = ss /\ StronglySorted before l /\ Forall (fun r => m <= fst r) l /\ Forall (fun r => 0 < snd r) l.
Proof.
  induction ss as [|s ss IH]; intros m Hm F; [exists []; repeat constructor|]. inversion F as [|? ? P F']; subst.
  pose proof (pow2_pos _ P) as Hs. cbn [map alloc]. apply is_pow2_spec in P. rewrite P.
  set (a := if m mod s =? 0 then m else (m / s + 1) * s).
  assert (m <= a) as Ha.
  { unfold a. destruct (m mod s =? 0); [lia|]. pose proof (Z.div_mod m s ltac:(lia)). pose proof (Z.mod_pos_bound m s Hs). nia. }
  destruct (IH (Z.max m (a + s)) ltac:(lia) F') as (l & E & E2 & S & G & G2). exists ((a, s) :: l). rewrite E. split; [reflexivity|].
  split; [cbn; rewrite E2; reflexivity|]. split; [|split].
  - constructor; [exact S|]. eapply Forall_impl; [|exact G]. unfold before. cbn. intros; lia.
  - constructor; [exact Ha|]. eapply Forall_impl; [|exact G]. cbn. intros; lia.
  - constructor; [exact Hs|exact G2].
Qed.
Lemma c35_auto : forall ss, Forall pow2_size ss -> exists l, normalize_slaves (map (fun s => (None, s)) ss) = Some l.
Proof.
  intros ss F. destruct (alloc_auto ss 0 ltac:(lia) F) as (l & E & _ & S & G & G2). exists l. unfold normalize_slaves. rewrite E.
  replace (no_collision _ _ && _) with true; [reflexivity|]. symmetry. apply (check_spec l G2). split; [|exact G].
  apply (disjoint_pairs l G2). clear -S. induction S as [|x l S IH F]; constructor; [|exact IH]. eapply Forall_impl; [|exact F]. intros; left; assumption.
Qed.

(** * C36 *)
Lemma log2ceilZ_gt x : 0 <= x -> (x <= 1 \/ forall k, 0 <= k -> x <> 2 ^ k) -> x < 2 ^ log2ceilZ x.
Proof.
  intros H0 H. unfold log2ceilZ. destruct (Z.eqb_spec x 0) as [->|E0]; [reflexivity|]. destruct (Z.eqb_spec x 1) as [->|E1]; [reflexivity|]. cbn [orb].
  assert (1 < x) as Hx by lia. pose proof (Z.log2_up_spec x Hx) as [_ L]. destruct H as [H|H]; [lia|]. specialize (H (Z.log2_up x) (Z.log2_up_nonneg x)). lia.
Qed.
Lemma c36 : forall (l : list region) (r : region) (DW w : Z),
  0 < DW / 8 ->
  optimal_addr_size (l ++ [r]) DW = Some w ->
  (forall q, In q l -> fst q + snd q <= fst r + snd r) ->
  (fst r + snd r) mod (DW / 8) = 0 ->
  (forall k, 0 < k -> fst r + snd r - DW / 8 <> 2 ^ k) ->
  forall q x, In q (l ++ [r]) -> in_region q x -> 0 <= x -> x mod (DW / 8) = 0 -> x < 2 ^ w.
Proof.
  intros l r DW w HB H Hl Hm Hk q x Hq Hx H0 Hx8. unfold optimal_addr_size in H. rewrite rev_unit in H.
  set (B := DW / 8) in *. clearbody B. set (e := fst r + snd r) in *. cbv zeta in H.
  destruct (Z.geb_spec (e - B) 0) as [G|G]; [|discriminate]. injection H as <-.
  assert (fst q + snd q <= e) as He. { apply in_app_iff in Hq. destruct Hq as [Hq|[<-|[]]]; [apply Hl; exact Hq|unfold e; lia]. }
  unfold in_region in Hx. assert (x <= e - B) as Hxe.
  { assert (x < e) by lia. pose proof (Z.div_mod x B ltac:(lia)) as D1. pose proof (Z.div_mod e B ltac:(lia)) as D2. rewrite Hx8 in D1. rewrite Hm in D2.
    clear - H D1 D2 HB. revert D1 D2. generalize (x / B), (e / B). intros qx qe D1 D2. assert (qx < qe) by (apply (Z.mul_lt_mono_pos_l B); lia). assert (B * qx <= B * (qe - 1)) by (apply Z.mul_le_mono_nonneg_l; lia). lia. }
  apply Z.le_lt_trans with (e - B); [exact Hxe|]. apply log2ceilZ_gt; [lia|].
  destruct (Z_le_gt_dec (e - B) 1) as [|Hg]; [left; assumption|right]. intros k Hk0.
  destruct (Z.eq_dec k 0) as [->|]; [change (2 ^ 0) with 1; lia|]. apply Hk. lia.
Qed.

Lemma c36_bad_order : exists (SLAVES : list slave_cfg) (l : list region) (w x : Z) (q : region),
  normalize_slaves SLAVES = Some l /\ optimal_addr_size l 32 = Some w /\ In q l /\ in_region q x /\ x mod 4 = 0 /\ 2 ^ w <= x.
Proof.
  exists [(Some 4096, 4096); (Some 0, 4096)], [(4096, 4096); (0, 4096)], 12, 4096, (4096, 4096).
  vm_compute. repeat split; try discriminate. left. reflexivity.
Qed.
Lemma c36_bad_pow2 : exists (SLAVES : list slave_cfg) (l : list region) (w x : Z) (q : region),
  normalize_slaves SLAVES = Some l /\ sort_regions l = l /\ optimal_addr_size l 32 = Some w /\ In q l /\ in_region q x /\ x mod 4 = 0 /\ 2 ^ w <= x.
Proof.
  exists [(Some 0, 4); (None, 4)], [(0, 4); (4, 4)], 2, 4, (4, 4).
  vm_compute. repeat split; try discriminate. right. left. reflexivity.
Qed.

(** * C37 *)
Local Open Scope nat_scope.
Lemma memb_In x l : memb x l = true <-> In x l.
Proof. unfold memb. rewrite existsb_exists. split; [intros (y & H & E); apply Nat.eqb_eq in E; subst; exact H|intros H; exists x; split; [exact H|apply Nat.eqb_refl]]. Qed.
Lemma memb_nIn x l : memb x l = false <-> ~ In x l.
Proof. rewrite <- memb_In. destruct (memb x l); split; intros; congruence. Qed.

Lemma filter_length_le' {A} (f : A -> bool) l : length (filter f l) <= length l.
Proof. induction l as [|x l IH]; [reflexivity|]. cbn [filter]. destruct (f x); cbn [length]; lia. Qed.

Section G.
  Variable mcon : list (list nat).
  Notation M := (length mcon).
  Lemma slave_masters_In s m : In m (slave_masters mcon s) <-> m < M /\ In s (nth m mcon []).
  Proof. unfold slave_masters. rewrite filter_In, in_seq, memb_In. intuition lia. Qed.

  Lemma search_eq fuel stack g : search mcon fuel stack g =
    match stack with
    | [] => Some g
    | mi :: rest => if memb mi (g_seen g) then search mcon fuel rest g
        else match fuel with
             | 0 => None
             | S f => search mcon f (rev (flat_map (slave_masters mcon) (nth mi mcon [])) ++ rest)
                        (mk_grp (mi :: g_seen g) (mi :: g_m g) (nth mi mcon [] ++ g_s g))
             end
    end.
  Proof. destruct fuel; destruct stack; reflexivity. Qed.

  (** what the search keeps: [root] is where the search started, [seen0] what was seen before it *)
  Record sinv (root : nat) (seen0 : list nat) (stack : list nat) (g : grp) : Prop := {
    s_seen : forall m, In m (g_seen g) <-> In m seen0 \/ In m (g_m g);
    s_m : forall m, In m (g_m g) -> m < M /\ linked mcon root m /\ ~ In m seen0;
    s_stack : forall m, In m stack -> m < M /\ linked mcon root m;
    s_root : In root stack \/ In root (g_seen g);
    s_closed : forall m m', In m (g_m g) -> share mcon m m' -> In m' stack \/ In m' (g_seen g);
    s_s : forall s, In s (g_s g) <-> exists m, In m (g_m g) /\ In s (nth m mcon []);
    s_nd : NoDup (g_m g) }.

  Definition unseen (g : grp) : nat := length (filter (fun m => negb (memb m (g_seen g))) (seq 0 M)).

  Lemma unseen_dec mi g a b : mi < M -> ~ In mi (g_seen g) -> S (unseen (mk_grp (mi :: g_seen g) a b)) = unseen g.
  Proof.
    intros Hm Hn. unfold unseen. cbn [g_seen].
    assert (forall l, NoDup l -> In mi l -> S (length (filter (fun m => negb (memb m (mi :: g_seen g))) l)) = length (filter (fun m => negb (memb m (g_seen g))) l)) as H.
    { assert (forall l, ~ In mi l -> filter (fun m => negb (memb m (mi :: g_seen g))) l = filter (fun m => negb (memb m (g_seen g))) l) as H0.
      { induction l as [|x l IH]; intros H; [reflexivity|]. cbn [filter]. rewrite IH by (intros X; apply H; right; exact X).
        unfold memb at 1. cbn [existsb]. destruct (Nat.eqb_spec x mi) as [->|]; [exfalso; apply H; left; reflexivity|]. reflexivity. }
      induction l as [|x l IH]; intros ND Hi; [destruct Hi|]. inversion ND; subst. cbn [filter]. destruct Hi as [->|Hi].
      - rewrite H0 by assumption. unfold memb at 1. cbn [existsb]. rewrite Nat.eqb_refl. cbn [orb negb].
        apply memb_nIn in Hn. rewrite Hn. reflexivity.
      - specialize (IH ltac:(assumption) Hi). unfold memb at 1. cbn [existsb]. destruct (Nat.eqb_spec x mi) as [->|]; [contradiction|]. cbn [orb].
        fold (memb x (g_seen g)). destruct (negb (memb x (g_seen g))); cbn [length]; lia. }
    apply H; [apply seq_NoDup|apply in_seq; lia].
  Qed.

  Lemma search_ok root seen0 : (forall m m', In m seen0 -> share mcon m m' -> In m' seen0) -> 
    forall fuel stack g, sinv root seen0 stack g -> unseen g <= fuel ->
    exists g', search mcon fuel stack g = Some g' /\ sinv root seen0 [] g'.
  Proof.
    intros Hc0. induction fuel as [|fuel IHf]; intros stack; induction stack as [|mi rest IHs]; intros g I Hf; rewrite search_eq.
    - exists g. split; [reflexivity|exact I].
    - destruct (memb mi (g_seen g)) eqn:E.
      + apply memb_In in E. apply IHs; [|exact Hf]. destruct I as [I1 I2 I3 I4 I5 I6 I7]. split; auto.
        * intros m H. apply I3. right. exact H.
        * destruct I4 as [[->|H]|H]; auto.
        * intros m m' H1 H2. destruct (I5 m m' H1 H2) as [[->|H]|H]; auto.
      + apply memb_nIn in E. pose proof (unseen_dec mi g [] [] (proj1 (s_stack _ _ _ _ I mi (or_introl eq_refl))) E). lia.
    - exists g. split; [reflexivity|exact I].
    - destruct (memb mi (g_seen g)) eqn:E.
      + apply memb_In in E. apply IHs; [|exact Hf]. destruct I as [I1 I2 I3 I4 I5 I6 I7]. split; auto.
        * intros m H. apply I3. right. exact H.
        * destruct I4 as [[->|H]|H]; auto.
        * intros m m' H1 H2. destruct (I5 m m' H1 H2) as [[->|H]|H]; auto.
      + apply memb_nIn in E. pose proof (proj1 (s_stack _ _ _ _ I mi (or_introl eq_refl))) as Hm.
        pose proof (proj2 (s_stack _ _ _ _ I mi (or_introl eq_refl))) as Hl.
        apply IHf.
        2:{ pose proof (unseen_dec mi g (mi :: g_m g) (nth mi mcon [] ++ g_s g) Hm E). lia. }
        destruct I as [I1 I2 I3 I4 I5 I6 I7]. split; cbn [g_seen g_m g_s].
        * intros m. cbn [In]. rewrite I1. tauto.
        * intros m [<-|H]; [|apply I2; exact H]. split; [exact Hm|]. split; [exact Hl|]. intros X. apply E. apply I1. left. exact X.
        * intros m H. apply in_app_iff in H. destruct H as [H|H]; [|apply I3; right; exact H].
          apply in_rev in H. apply in_flat_map in H. destruct H as (s & Hs & H). apply slave_masters_In in H. destruct H as [H1 H2].
          split; [exact H1|]. apply linked_step with mi; [exact Hl|]. split; [exact Hm|]. split; [exact H1|]. exists s. auto.
        * destruct I4 as [[->|H]|H]; [right; left; reflexivity|left; apply in_app_iff; right; exact H|right; right; exact H].
        * intros m m' [<-|H1] H2.
          -- left. apply in_app_iff. left. apply -> in_rev. destruct H2 as (_ & H2 & s & S1 & S2). apply in_flat_map. exists s. split; [exact S1|].
             apply slave_masters_In. auto.
          -- destruct (I5 m m' H1 H2) as [[->|H]|H]; [right; left; reflexivity|left; apply in_app_iff; right; exact H|right; right; exact H].
        * intros s. rewrite in_app_iff, I6. split.
          -- intros [H|(m & H1 & H2)]; [exists mi; split; [left; reflexivity|exact H]|exists m; split; [right; exact H1|exact H2]].
          -- intros (m & [<-|H1] & H2); [left; exact H2|right; exists m; auto].
        * constructor; [|exact I7]. intros X. apply E. apply I1. right. exact X.
  Qed.

  Lemma share_sym a b : share mcon a b -> share mcon b a.
  Proof. intros (H1 & H2 & s & H3 & H4). split; [exact H2|]. split; [exact H1|]. exists s. auto. Qed.
  Lemma linked_trans a b c : linked mcon a b -> linked mcon b c -> linked mcon a c.
  Proof. intros H1 H2. induction H2 as [|b c d H2 IH S]; [exact H1|]. apply linked_step with c; [apply IH; exact H1|exact S]. Qed.
  Lemma linked_sym a b : linked mcon a b -> linked mcon b a.
  Proof.
    induction 1 as [|a b c H IH S]; [constructor|]. apply linked_trans with b; [|exact IH].
    apply linked_step with c; [constructor|apply share_sym; exact S].
  Qed.

  (** the result of a search from a fresh root: the whole component *)
  Lemma search_root root seen0 : root < M -> (forall m m', In m seen0 -> share mcon m m' -> In m' seen0) ->
    exists g, search mcon M [root] (mk_grp seen0 [] []) = Some g /\
      (forall m, In m (g_seen g) <-> In m seen0 \/ In m (g_m g)) /\
      (forall m m', In m (g_seen g) -> share mcon m m' -> In m' (g_seen g)) /\
      (forall s, In s (g_s g) <-> exists m, In m (g_m g) /\ In s (nth m mcon [])) /\
      In root (g_seen g) /\ NoDup (g_m g) /\
      (In root seen0 -> g_m g = [] /\ g_s g = []) /\
      (~ In root seen0 -> forall m, In m (g_m g) <-> m < M /\ linked mcon root m).
  Proof.
    intros Hr Hc.
    assert (sinv root seen0 [root] (mk_grp seen0 [] [])) as I0.
    { split; cbn [g_seen g_m g_s In]; try tauto.
      - intros m [<-|[]]. split; [exact Hr|constructor].
      - intros s. split; [intros []|intros (m & [] & _)].
      - constructor. }
    destruct (search_ok root seen0 Hc M [root] _ I0) as (g & E & [I1 I2 _ I4 I5 I6 I7]).
    { unfold unseen. etransitivity; [apply filter_length_le'|]. rewrite seq_length. reflexivity. }
    exists g. split; [exact E|]. split; [exact I1|].
    assert (forall m m', In m (g_seen g) -> share mcon m m' -> In m' (g_seen g)) as Hcl.
    { intros m m' H1 H2. apply I1 in H1. destruct H1 as [H1|H1]; [apply I1; left; apply (Hc m); assumption|].
      destruct (I5 m m' H1 H2) as [[]|H]; exact H. }
    split; [exact Hcl|]. split; [exact I6|]. destruct I4 as [[]|I4]. split; [exact I4|]. split; [exact I7|]. split.
    - intros Hin. assert (g_m g = []) as Em.
      { destruct (g_m g) as [|m l] eqn:Em; [reflexivity|]. exfalso. destruct (I2 m) as (_ & L & N); [left; reflexivity|]. apply N.
        clear -L Hin Hc. induction L as [|r b c L IH S]; [exact Hin|]. apply (Hc b); [apply IH; exact Hin|exact S]. }
      split; [exact Em|]. destruct (g_s g) as [|s l] eqn:Es; [reflexivity|]. exfalso. destruct (proj1 (I6 s)) as (m & H & _); [left; reflexivity|]. rewrite Em in H. destruct H.
    - intros Hn m. split; [intros H; split; apply (I2 m H)|]. intros [Hm L].
      assert (In m (g_seen g) /\ ~ In m seen0) as [H1 H2].
      { clear Hm. induction L as [|r b c L IH S]; [split; [exact I4|exact Hn]|]. destruct (IH Hr) as [J1 J2]; auto. split; [apply (Hcl b); assumption|].
        intros X. apply J2. apply (Hc c); [exact X|apply share_sym; exact S]. }
      apply I1 in H1. destruct H1 as [H1|H1]; [contradiction|exact H1].
  Qed.
End G.

Section G2.
  Variable mcon : list (list nat).
  Notation M := (length mcon).
  (** description of the groups found for the roots [mis] when [seen] is known *)
  Definition good_groups (seen mis : list nat) (l : list (list nat * list nat)) : Prop :=
    (forall g, In g l -> exists r, In r (fst g) /\ r < M /\ ~ In r seen /\ (forall m, In m (fst g) <-> m < M /\ linked mcon r m)) /\
    (forall g, In g l -> NoDup (fst g) /\ forall s, In s (snd g) <-> exists m, In m (fst g) /\ In s (nth m mcon [])) /\
    (forall r, In r mis -> In r seen \/ exists g, In g l /\ In r (fst g)) /\
    (forall i j g g' m, nth_error l i = Some g -> nth_error l j = Some g' -> In m (fst g) -> In m (fst g') -> i = j) /\
    (forall g m, In g l -> In m (fst g) -> ~ In m seen).

  Lemma groups_ok : forall mis seen, (forall r, In r mis -> r < M) -> (forall m m', In m seen -> share mcon m m' -> In m' seen) ->
    exists l, groups_from mcon mis seen = Some l /\ good_groups seen mis l.
  Proof.
    induction mis as [|r mis IH]; intros seen Hr Hc.
    - exists []. split; [reflexivity|]. repeat split; try (intros; contradiction). intros i j g g' m H. destruct i; discriminate.
    - cbn [groups_from]. destruct (search_root mcon r seen (Hr r (or_introl eq_refl)) Hc) as (g & E & S1 & S2 & S3 & S4 & S5 & S6 & S7). rewrite E.
      destruct (IH (g_seen g)) as (l & El & G1 & G2 & G3 & G4 & G5); [intros q Hq; apply Hr; right; exact Hq|exact S2|]. rewrite El.
      destruct (in_dec Nat.eq_dec r seen) as [Hin|Hn].
      + destruct (S6 Hin) as [Em Es]. rewrite Em, Es. exists l. split; [reflexivity|].
        assert (forall m, In m (g_seen g) <-> In m seen) as Hs by (intros m; rewrite S1, Em; cbn [In]; tauto).
        split; [|split; [exact G2|split; [|split; [exact G4|]]]].
        * intros q Hq. destruct (G1 q Hq) as (x & X1 & X2 & X3 & X4). exists x. rewrite Hs in X3. auto.
        * intros q [<-|Hq]; [left; exact Hin|]. destruct (G3 q Hq) as [X|X]; [left; apply Hs; exact X|right; exact X].
        * intros q m Hq Hm. rewrite <- Hs. apply (G5 q m Hq Hm).
      + specialize (S7 Hn). assert (In r (g_m g)) as Hrm by (apply S7; split; [apply Hr; left; reflexivity|constructor]).
        assert (match g_m g, g_s g with [], [] => l | _, _ => (g_m g, g_s g) :: l end = (g_m g, g_s g) :: l) as EE by (destruct (g_m g); [destruct Hrm|reflexivity]).
        rewrite EE. exists ((g_m g, g_s g) :: l). split; [reflexivity|].
        split; [|split; [|split; [|split]]].
        * intros q [<-|Hq].
          -- exists r. split; [exact Hrm|]. split; [apply Hr; left; reflexivity|]. split; [exact Hn|exact S7].
          -- destruct (G1 q Hq) as (x & X1 & X2 & X3 & X4). exists x. rewrite S1 in X3. tauto.
        * intros q [<-|Hq]; [split; [exact S5|exact S3]|apply G2; exact Hq].
        * intros q [<-|Hq]; [right; exists (g_m g, g_s g); split; [left; reflexivity|exact Hrm]|].
          destruct (G3 q Hq) as [X|(h & X1 & X2)]; [|right; exists h; split; [right; exact X1|exact X2]].
          apply S1 in X. destruct X as [X|X]; [left; exact X|right; exists (g_m g, g_s g); split; [left; reflexivity|exact X]].
        * intros i j h h' m Hi Hj Hm Hm'. destruct i as [|i], j as [|j]; cbn [nth_error] in *.
          -- reflexivity.
          -- injection Hi as <-. exfalso. apply (G5 h' m); [eapply nth_error_In; exact Hj|exact Hm'|]. apply S1. right. exact Hm.
          -- injection Hj as <-. exfalso. apply (G5 h m); [eapply nth_error_In; exact Hi|exact Hm|]. apply S1. right. exact Hm'.
          -- f_equal. eapply G4; eassumption.
        * intros q m [<-|Hq] Hm.
          -- intros X. cbn [fst] in Hm. apply S7 in Hm. destruct Hm as [_ L]. apply Hn. apply linked_sym in L.
             clear -L X Hc. induction L as [|a b c L IH S]; [exact X|]. apply (Hc b); [apply IH; exact X|exact S].
          -- intros X. apply (G5 q m Hq Hm). apply S1. left. exact X.
  Qed.
End G2.

Lemma c37 : forall mcon : list (list nat), exists l,
  separable_groups mcon = Some l /\
  (forall m, m < length mcon -> exists! i, exists g, nth_error l i = Some g /\ In m (fst g)) /\
  (forall g m m', In g l -> In m (fst g) -> (In m' (fst g) <-> m' < length mcon /\ linked mcon m m')) /\
  (forall g s, In g l -> (In s (snd g) <-> exists m, In m (fst g) /\ In s (nth m mcon []))) /\
  (forall i j g g' s, nth_error l i = Some g -> nth_error l j = Some g' -> In s (snd g) -> In s (snd g') -> i = j).
Proof.
  intros mcon. destruct (groups_ok mcon (seq 0 (length mcon)) []) as (l & E & G1 & G2 & G3 & G4 & G5).
  { intros r Hr. apply in_seq in Hr. lia. } { intros m m' []. }
  exists l. split; [exact E|].
  assert (forall g m m', In g l -> In m (fst g) -> (In m' (fst g) <-> m' < length mcon /\ linked mcon m m')) as HC.
  { intros g m m' Hg Hm. destruct (G1 g Hg) as (r & R1 & R2 & R3 & R4). apply R4 in Hm. destruct Hm as [Hm L]. rewrite R4.
    split; intros [H1 H2]; (split; [exact H1|]); [apply linked_trans with r; [apply linked_sym; exact L|exact H2]|apply linked_trans with m; assumption]. }
  split; [|split; [exact HC|split]].
  - intros m Hm. destruct (G3 m) as [[]|(g & X1 & X2)]; [apply in_seq; lia|]. apply In_nth_error in X1. destruct X1 as [i Hi]. exists i. split; [exists g; auto|].
    intros j (g' & Y1 & Y2). eapply G4; eassumption.
  - intros g s Hg. apply (proj2 (G2 g Hg)).
  - intros i j g g' s Hi Hj Hs Hs'. assert (In g l) as Hg by (eapply nth_error_In; exact Hi). assert (In g' l) as Hg' by (eapply nth_error_In; exact Hj).
    apply (proj2 (G2 g Hg)) in Hs. apply (proj2 (G2 g' Hg')) in Hs'. destruct Hs as (m & M1 & M2), Hs' as (m' & M1' & M2').
    assert (m < length mcon) as Lm. { destruct (le_lt_dec (length mcon) m); [rewrite nth_overflow in M2 by assumption; destruct M2|assumption]. }
    assert (m' < length mcon) as Lm'. { destruct (le_lt_dec (length mcon) m'); [rewrite nth_overflow in M2' by assumption; destruct M2'|assumption]. }
    assert (In m' (fst g)) as H. { apply (HC g m m' Hg M1). split; [exact Lm'|]. apply linked_step with m; [constructor|]. split; [exact Lm|]. split; [exact Lm'|]. exists s. auto. }
    eapply G4; eassumption.
Qed.

Local Open Scope Z_scope.
Lemma ex36 : optimal_addr_size ([(0, 4096)] ++ [(4096, 4096)]) 32 = Some 13 /\
  (forall q, In q [(0, 4096)] -> fst q + snd q <= 4096 + 4096) /\ (4096 + 4096) mod (32 / 8) = 0 /\
  (forall k, 0 < k -> 4096 + 4096 - 32 / 8 <> 2 ^ k).
Proof.
  split; [reflexivity|]. split; [intros q [<-|[]]; cbn; lia|]. split; [reflexivity|].
  intros k Hk E. change (4096 + 4096 - 32 / 8) with 8188 in E.
  assert (12 < k) as H1. { apply (Z.pow_lt_mono_r_iff 2); try lia. all: rewrite <- E; reflexivity. }
  assert (k < 13) as H2. { apply (Z.pow_lt_mono_r_iff 2); try lia. all: rewrite <- E; reflexivity. }
  lia.
Qed.
