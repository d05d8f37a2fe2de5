From Coq Require Import NArith List Lia.
From Verif Require Import Base DbmModel DbmSpec.
Import ListNotations.
Local Open Scope N_scope.

Scheme hio_m := Induction for hio Sort Prop with hios_m := Induction for hios Sort Prop.
Combined Scheme hio_mut from hio_m, hios_m.

Lemma p2nz : forall a, 2 ^ a <> 0. Proof. intros a. apply N.pow_nonzero. lia. Qed.
Lemma p2pos : forall a, 0 < 2 ^ a. Proof. intros a. pose proof (p2nz a). lia. Qed.
Lemma bits_lt : (forall t, fits t -> snd (hw_bits t) < 2 ^ fst (hw_bits t)) /\ (forall l, fitss l -> snd (hw_bitss l) < 2 ^ fst (hw_bitss l)).
Proof.
  apply hio_mut.
  - intros w v H. exact H.
  - intros l IH H. cbn [hw_bits]. apply IH. exact H.
  - intros _. cbn. lia.
  - intros n t IHt l IHl (H1 & H2). cbn [hw_bitss]. specialize (IHt H1). specialize (IHl H2).
    destruct (hw_bits t) as (w1, v1). destruct (hw_bitss l) as (w2, v2). cbn [fst snd] in *. rewrite N.pow_add_r.
    assert (2 ^ w1 * (v2 + 1) <= 2 ^ w1 * 2 ^ w2) by (apply N.mul_le_mono_l; lia). lia.
Qed.
(** parts of a number *)
Lemma split_val : forall X w1 w2 v1 v2, v1 < 2 ^ w1 -> X mod 2 ^ (w1 + w2) = v1 + 2 ^ w1 * v2 -> X mod 2 ^ w1 = v1 /\ (X / 2 ^ w1) mod 2 ^ w2 = v2.
Proof.
  intros X w1 w2 v1 v2 H E. rewrite N.pow_add_r, N.mod_mul_r in E by apply p2nz.
  assert (Hm : X mod 2 ^ w1 < 2 ^ w1) by (apply N.mod_lt, p2nz).
  destruct (N.div_mod_unique (2 ^ w1) ((X / 2 ^ w1) mod 2 ^ w2) v2 (X mod 2 ^ w1) v1 Hm H) as (E1 & E2); [lia|]. auto.
Qed.
Lemma sel_part : forall F D off w, off + w <= D -> sel (F mod 2 ^ D) off w = (F / 2 ^ off) mod 2 ^ w.
Proof.
  intros F D off w H. unfold sel. apply N.bits_inj. intros i. destruct (N.lt_ge_cases i w) as [Hi|Hi].
  - rewrite !N.mod_pow2_bits_low by exact Hi. rewrite !N.div_pow2_bits. apply N.mod_pow2_bits_low. lia.
  - rewrite !N.mod_pow2_bits_high by exact Hi. reflexivity.
Qed.

(** the description of an interface *)
Lemma fmt_ok : forall F D,
  (forall t off name ind, fits t -> (F / 2 ^ off) mod 2 ^ fst (hw_bits t) = snd (hw_bits t) -> spec_end (snd (bm_spec t off)) <= D ->
     fmt_spec name (snd (bm_spec t off)) (F mod 2 ^ D) ind = show name t ind /\ fst (bm_spec t off) = off + fst (hw_bits t)) /\
  (forall l off ind, fitss l -> (F / 2 ^ off) mod 2 ^ fst (hw_bitss l) = snd (hw_bitss l) -> spec_ends (snd (bm_specs l off)) <= D ->
     fmt_specs (snd (bm_specs l off)) (F mod 2 ^ D) ind = shows l ind /\ fst (bm_specs l off) = off + fst (hw_bitss l)).
Proof.
  intros F D. apply hio_mut.
  - intros w v off name ind Hf E He. cbn [bm_spec hw_bits fst snd spec_end fmt_spec show] in *. rewrite sel_part by exact He. rewrite E. auto.
  - intros l IH off name ind Hf E He. cbn [bm_spec hw_bits] in *. specialize (IH off (S ind) Hf E). destruct (bm_specs l off) as (off', r). cbn [fst snd spec_end fmt_spec show] in *.
    destruct (IH He) as (H1 & H2). rewrite H1. auto.
  - intros off ind _ _ _. cbn. rewrite N.add_0_r. auto.
  - intros n t IHt l IHl off ind (Hf1 & Hf2) E He. cbn [bm_specs hw_bitss] in *.
    pose proof (proj1 bits_lt t Hf1) as Hlt. specialize (IHt off n ind Hf1).
    destruct (hw_bits t) as (w1, v1). cbn [fst snd] in *.
    destruct (hw_bitss l) as (w2, v2) eqn:El. cbn [fst snd] in *. destruct (split_val _ _ _ _ _ Hlt E) as (E1 & E2).
    rewrite N.div_div in E2 by apply p2nz. rewrite <- N.pow_add_r in E2.
    specialize (IHt E1). destruct (bm_spec t off) as (off1, s) eqn:Es. cbn [fst snd] in *.
    assert (Ho : off1 = off + w1 /\ (spec_end s <= D -> fmt_spec n s (F mod 2 ^ D) ind = show n t ind)).
    { destruct (bm_specs l off1) as (off2, r) eqn:Er. cbn [fst snd spec_ends] in He. destruct IHt as (H1 & H2); [clear - He; lia|]. auto. }
    destruct Ho as (-> & Hs). specialize (IHl (off + w1) ind Hf2 E2). destruct (bm_specs l (off + w1)) as (off2, r). cbn [fst snd spec_ends fmt_specs shows] in *.
    destruct IHl as (H3 & H4); [clear - He; lia|]. rewrite Hs, H3 by (clear - He; lia). split; [reflexivity|]. rewrite H4. clear. lia.
Qed.

(** records without children *)
Lemma mem_lt : forall r, Forall rec_fits r -> snd (hw_memory r) < 2 ^ fst (hw_memory r).
Proof.
  induction r as [|(n, [t|]) r IH]; intros H; [cbn; lia| |]; inversion H as [|? ? H1 H2]; subst; cbn [hw_memory].
  - specialize (IH H2). pose proof (proj1 bits_lt t H1) as Ht. destruct (hw_bits t) as (w1, v1). destruct (hw_memory r) as (w2, v2). cbn [fst snd] in *. rewrite N.pow_add_r.
    assert (2 ^ w1 * (v2 + 1) <= 2 ^ w1 * 2 ^ w2) by (apply N.mul_le_mono_l; lia). lia.
  - apply IH. exact H2.
Qed.
Lemma nth_mid : forall (a : recs) x b d, nth (length a) (a ++ x :: b) d = x.
Proof. intros a x b d. rewrite app_nth2 by lia. rewrite Nat.sub_diag. reflexivity. Qed.
Lemma flat_ok : forall F D b a off ind, Forall rec_fits b -> (F / 2 ^ off) mod 2 ^ fst (hw_memory b) = snd (hw_memory b) ->
  let m := bm_metas (a ++ b) (flat (seq (length a) (length b))) off in data_width (snd m) <= D ->
  fmt_nodes (snd m) (F mod 2 ^ D) ind = want_forest (a ++ b) (flat (seq (length a) (length b))) ind.
Proof.
  intros F D b. induction b as [|(n, io) b IH]; intros a off ind Hf E; cbv zeta; [reflexivity|].
  inversion Hf as [|? ? Hf1 Hf2]; subst. cbn [length seq flat bm_metas bm_meta want_forest want_tree]. rewrite nth_mid.
  specialize (IH (a ++ [(n, io)])). rewrite <- app_assoc in IH. cbn [app] in IH. rewrite app_length in IH. cbn [length] in IH.
  replace (length a + 1)%nat with (S (length a)) in IH by lia. cbn [hw_memory] in E. cbn [app]. unfold rec_fits in Hf1. cbn [snd] in Hf1.
  destruct io as [t|].
  - pose proof (proj1 bits_lt t Hf1) as Hlt. pose proof (proj1 (fmt_ok F D) t off n ind Hf1) as Ht.
    destruct (hw_bits t) as (w1, v1). cbn [fst snd] in *.
    destruct (hw_memory b) as (w2, v2) eqn:Eb. cbn [fst snd] in *. destruct (split_val _ _ _ _ _ Hlt E) as (E1 & E2).
    rewrite N.div_div in E2 by apply p2nz. rewrite <- N.pow_add_r in E2. specialize (Ht E1).
    destruct (bm_spec t off) as (off1, s) eqn:Es. cbn [fst snd] in *. intros He.
    assert (Hs : spec_end s <= D).
    { destruct (bm_metas (a ++ (n, Some t) :: b) (flat (seq (S (length a)) (length b))) off1). cbn [snd data_width] in He. clear - He. lia. }
    destruct (Ht Hs) as (H1 & ->). specialize (IH (off + w1) ind Hf2 E2). cbv zeta in IH.
    destruct (bm_metas (a ++ (n, Some t) :: b) (flat (seq (S (length a)) (length b))) (off + w1)) as (off2, ml). cbn [fst snd data_width fmt_nodes] in *.
    rewrite <- IH by (clear - He; lia). f_equal. rewrite <- H1. cbn [fmt_node fmt_nodes want_forest]. rewrite app_nil_r. destruct s; [reflexivity|]. cbn [fmt_spec]. rewrite app_nil_r. reflexivity.
  - intros He. specialize (IH off ind Hf2 E). cbv zeta in IH.
    destruct (bm_metas (a ++ (n, None) :: b) (flat (seq (S (length a)) (length b))) off) as (off2, ml). cbn [fst snd data_width fmt_nodes spec_end spec_ends] in *.
    rewrite <- IH by (clear - He; lia). reflexivity.
Qed.

(** reading *)
Definition hor (l : list N) : N := fold_right (fun x acc => acc * 2 ^ 32 + x) 0 l.
Lemma wti_hor : forall l, words_to_int l = hor l.
Proof. intros l. unfold words_to_int, hor. rewrite <- fold_left_rev_right, rev_involutive. reflexivity. Qed.
Lemma hor_app : forall a b, hor (a ++ b) = hor a + 2 ^ (32 * N.of_nat (length a)) * hor b.
Proof.
  induction a as [|x a IH]; intros b; [cbn [app length N.of_nat]; rewrite N.mul_0_r; cbn [hor fold_right N.pow]; lia|].
  cbn [app hor fold_right]. fold (hor (a ++ b)). fold (hor a). rewrite IH. cbn [length].
  replace (32 * N.of_nat (S (length a))) with (32 + 32 * N.of_nat (length a)) by lia. rewrite N.pow_add_r. lia.
Qed.
Lemma hor_words : forall F n, hor (map (fun i => (F / 2 ^ (32 * N.of_nat i)) mod 2 ^ 32) (seq 0 n)) = F mod 2 ^ (32 * N.of_nat n).
Proof.
  intros F n. induction n; [cbn [seq map hor fold_right N.of_nat]; rewrite N.mul_0_r, N.mod_1_r; reflexivity|].
  rewrite seq_S, map_app, hor_app, map_length, seq_length, IHn. cbn [map Nat.add hor fold_right].
  replace (32 * N.of_nat (S n)) with (32 * N.of_nat n + 32) by lia. rewrite (N.pow_add_r 2 (32 * N.of_nat n)), N.mod_mul_r by apply p2nz. lia.
Qed.
Lemma mod_mod_pow : forall x a b, a <= b -> (x mod 2 ^ b) mod 2 ^ a = x mod 2 ^ a.
Proof.
  intros x a b H. replace b with (a + (b - a)) by lia. rewrite N.pow_add_r, N.mod_mul_r by apply p2nz. rewrite N.mul_comm, N.mod_add by apply p2nz.
  apply N.mod_mod, p2nz.
Qed.
Lemma read_ok : forall F size, ctl_read (fun i => (F / 2 ^ (32 * N.of_nat i)) mod 2 ^ 32) size = Some (F mod 2 ^ (8 * size)).
Proof.
  intros F size. unfold ctl_read. cbv zeta. rewrite wti_hor.
  assert (E : hor (mask_last (map (fun i => (F / 2 ^ (32 * N.of_nat i)) mod 2 ^ 32) (seq 0 (N.to_nat ((size + 3) / 4)))) size) = F mod 2 ^ (8 * size)).
  { pose proof (N.div_mod size 4 ltac:(discriminate)) as Hd. pose proof (N.mod_lt size 4 ltac:(discriminate)) as Hm. set (e := size mod 4) in *. set (q := size / 4) in *.
    unfold mask_last. fold e. destruct (N.eqb_spec e 0) as [He|He].
    - assert (Eq : (size + 3) / 4 = q) by (symmetry; apply (N.div_unique _ 4 q 3); lia). rewrite Eq, hor_words, N2Nat.id. do 2 f_equal. lia.
    - assert (Eq : (size + 3) / 4 = q + 1) by (symmetry; apply (N.div_unique _ 4 (q + 1) (e - 1)); lia). rewrite Eq, N2Nat.inj_add. change (N.to_nat 1) with 1%nat.
      rewrite Nat.add_1_r, seq_S, map_app. cbn [map Nat.add]. rewrite removelast_last, last_last. rewrite hor_app, map_length, seq_length, hor_words, N2Nat.id.
      cbn [hor fold_right]. rewrite mod_mod_pow by lia. replace (8 * size) with (32 * q + 8 * e) by lia. rewrite (N.pow_add_r 2 (32 * q)), N.mod_mul_r by apply p2nz. lia. }
  rewrite E. assert (Hl : F mod 2 ^ (8 * size) < 2 ^ (8 * size)) by (apply N.mod_lt, p2nz). apply N.ltb_lt in Hl. rewrite Hl. reflexivity.
Qed.
Lemma bus_eq : forall r junk, on_bus r junk = fun i => ((snd (hw_memory r) + 2 ^ fst (hw_memory r) * junk) / 2 ^ (32 * N.of_nat i)) mod 2 ^ 32.
Proof. intros r junk. unfold on_bus. destruct (hw_memory r). reflexivity. Qed.
Lemma dump_flat : forall r junk, Forall rec_fits r -> dump r (flat (seq 0 (length r))) (on_bus r junk) = Some (want_forest r (flat (seq 0 (length r))) 0).
Proof.
  intros r junk Hf. unfold dump. cbv zeta. rewrite bus_eq. rewrite read_ok. f_equal.
  apply (flat_ok _ _ r [] 0 0 Hf).
  - cbn [N.pow]. rewrite N.div_1_r. rewrite N.mul_comm, N.mod_add by apply p2nz. apply N.mod_small, mem_lt. exact Hf.
  - cbn [app length]. unfold data_size. pose proof (N.div_mod (data_width (snd (bm_metas r (flat (seq 0 (length r))) 0)) + 7) 8 ltac:(discriminate)).
    pose proof (N.mod_lt (data_width (snd (bm_metas r (flat (seq 0 (length r))) 0)) + 7) 8 ltac:(discriminate)). lia.
Qed.
Lemma flat_covers : forall r, covers r (flat (seq 0 (length r))).
Proof.
  intros r. assert (E : forall l, ids_f (flat l) = l) by (induction l as [|i l IH]; [reflexivity|]; cbn; rewrite IH; reflexivity).
  unfold covers. rewrite E. split; [apply seq_NoDup|]. intros i. rewrite in_seq. lia.
Qed.

(** records with children *)
Scheme mtree_m := Induction for mtree Sort Prop with mforest_m := Induction for mforest Sort Prop.
Combined Scheme mtree_mut from mtree_m, mforest_m.
Definition pick (r : recs) (l : list nat) : recs := map (fun i => nth i r (0%nat, None)) l.
Lemma pick_all : forall r, pick r (seq 0 (length r)) = r.
Proof.
  intros r. unfold pick. apply (nth_ext _ _ (0%nat, None) (0%nat, None)); [rewrite map_length, seq_length; reflexivity|].
  intros i Hi. rewrite map_length, seq_length in Hi.
  rewrite (nth_indep _ (0%nat, None) (nth 0 r (0%nat, None))) by (rewrite map_length, seq_length; exact Hi).
  rewrite (map_nth (fun i => nth i r (0%nat, None))). rewrite seq_nth by exact Hi. reflexivity.
Qed.
Lemma pick_fits : forall r l, Forall rec_fits r -> Forall rec_fits (pick r l).
Proof.
  intros r l H. unfold pick. apply Forall_map. apply Forall_forall. intros i _. destruct (nth_in_or_default i r (0%nat, None)) as [Hi|Hi].
  - rewrite Forall_forall in H. apply H. exact Hi.
  - rewrite Hi. exact I.
Qed.
Lemma mem_app : forall a b, fst (hw_memory (a ++ b)) = fst (hw_memory a) + fst (hw_memory b) /\
  snd (hw_memory (a ++ b)) = snd (hw_memory a) + 2 ^ fst (hw_memory a) * snd (hw_memory b).
Proof.
  induction a as [|(n, [t|]) a IH]; intros b; cbn [app hw_memory].
  - cbn [fst snd N.pow]. split; lia.
  - destruct (IH b) as (H1 & H2). destruct (hw_bits t) as (w1, v1). destruct (hw_memory (a ++ b)) as (w3, v3). destruct (hw_memory a) as (w2, v2). cbn [fst snd] in *.
    subst. rewrite N.pow_add_r. split; [clear; lia|]. rewrite N.mul_add_distr_l, N.mul_assoc. clear. apply N.add_assoc.
  - apply IH.
Qed.
Lemma mem_split : forall F off a b, Forall rec_fits a -> (F / 2 ^ off) mod 2 ^ fst (hw_memory (a ++ b)) = snd (hw_memory (a ++ b)) ->
  (F / 2 ^ off) mod 2 ^ fst (hw_memory a) = snd (hw_memory a) /\ (F / 2 ^ (off + fst (hw_memory a))) mod 2 ^ fst (hw_memory b) = snd (hw_memory b).
Proof.
  intros F off a b Ha E. destruct (mem_app a b) as (H1 & H2). rewrite H1, H2 in E. destruct (split_val _ _ _ _ _ (mem_lt a Ha) E) as (E1 & E2).
  split; [exact E1|]. rewrite N.pow_add_r. rewrite <- N.div_div by apply p2nz. exact E2.
Qed.
Lemma end_le : (forall t off, spec_end (snd (bm_spec t off)) <= off + fst (hw_bits t) /\ fst (bm_spec t off) = off + fst (hw_bits t) /\
    (some_signal t = true -> spec_end (snd (bm_spec t off)) = off + fst (hw_bits t)) /\ (some_signal t = false -> fst (hw_bits t) = 0)) /\
  (forall l off, spec_ends (snd (bm_specs l off)) <= off + fst (hw_bitss l) /\ fst (bm_specs l off) = off + fst (hw_bitss l) /\
    (some_signals l = true -> spec_ends (snd (bm_specs l off)) = off + fst (hw_bitss l)) /\ (some_signals l = false -> fst (hw_bitss l) = 0)).
Proof.
  apply hio_mut.
  - intros w v off. cbn. split; [lia|]. split; [reflexivity|]. split; [reflexivity|discriminate].
  - intros l IH off. cbn [bm_spec hw_bits some_signal]. specialize (IH off). destruct (bm_specs l off) as (o, s). exact IH.
  - intros off. cbn. split; [lia|]. split; [lia|]. split; [discriminate|reflexivity].
  - intros n t IHt l IHl off. cbn [bm_specs hw_bitss some_signals]. specialize (IHt off). destruct (hw_bits t) as (w1, v1). destruct (bm_spec t off) as (o1, s1). cbn [fst snd] in *.
    destruct IHt as (A1 & A2 & A3 & A4). subst o1. specialize (IHl (off + w1)). destruct (hw_bitss l) as (w2, v2). destruct (bm_specs l (off + w1)) as (o2, s2).
    cbn [fst snd spec_ends] in *. destruct IHl as (B1 & B2 & B3 & B4).
    split; [clear - A1 B1; lia|]. split; [clear - B2; lia|].
    destruct (some_signal t), (some_signals l); cbn [orb]; split; intros H; try discriminate H.
    + specialize (A3 eq_refl). specialize (B3 eq_refl). clear - A3 B3. lia.
    + specialize (A3 eq_refl). specialize (B4 eq_refl). clear - A3 B4 B1. lia.
    + specialize (B3 eq_refl). clear - B3 A1. lia.
    + specialize (A4 eq_refl). specialize (B4 eq_refl). clear - A4 B4. lia.
Qed.
Lemma tree_ok : forall F D r, Forall rec_fits r ->
  (forall t off ind, nice_t r t -> (F / 2 ^ off) mod 2 ^ fst (hw_memory (pick r (ids_t t))) = snd (hw_memory (pick r (ids_t t))) ->
    off + fst (hw_memory (pick r (ids_t t))) <= D ->
    fmt_node (snd (bm_meta r t off)) (F mod 2 ^ D) ind = want_tree r t ind /\ fst (bm_meta r t off) = off + fst (hw_memory (pick r (ids_t t)))) /\
  (forall f off ind, nice_f r f -> (F / 2 ^ off) mod 2 ^ fst (hw_memory (pick r (ids_f f))) = snd (hw_memory (pick r (ids_f f))) ->
    off + fst (hw_memory (pick r (ids_f f))) <= D ->
    fmt_nodes (snd (bm_metas r f off)) (F mod 2 ^ D) ind = want_forest r f ind /\ fst (bm_metas r f off) = off + fst (hw_memory (pick r (ids_f f)))).
Proof.
  intros F D r Hr. apply mtree_mut.
  - intros i ch IH off ind (Hl & Hn) E He. cbn [ids_t bm_meta want_tree] in *.
    change (pick r (i :: ids_f ch)) with ([nth i r (0%nat, None)] ++ pick r (ids_f ch)) in *.
    assert (H1 : Forall rec_fits [nth i r (0%nat, None)]) by (apply (pick_fits r [i] Hr)).
    destruct (mem_split _ _ _ _ H1 E) as (E1 & E2). rewrite (proj1 (mem_app _ _)) in *. specialize (IH (off + fst (hw_memory [nth i r (0%nat, None)])) (S ind) Hn E2).
    rewrite <- N.add_assoc in IH. specialize (IH He). destruct IH as (I1 & I2). inversion H1 as [|? ? Hf _]; subst.
    destruct (nth i r (0%nat, None)) as (name, [t|]) eqn:En.
    + unfold rec_fits in Hf. cbn [snd] in Hf. cbn [hw_memory] in *. pose proof (proj1 (fmt_ok F D) t off name ind Hf) as Ht. destruct (proj1 end_le t off) as (L1 & L2 & _).
      destruct (hw_bits t) as (w1, v1). cbn [fst snd] in *. rewrite N.add_0_r, N.mul_0_r, N.add_0_r in *. specialize (Ht E1).
      destruct (bm_spec t off) as (o1, s) eqn:Es. cbn [fst snd] in *. destruct Ht as (T1 & T2); [clear - L1 He; lia|]. subst o1.
      destruct (bm_metas r ch (off + w1)) as (o2, c). cbn [fst snd] in *. split; [|rewrite I2; clear; lia].
      rewrite <- T1, <- I1. cbn [fmt_node]. destruct s as [so sw|sl].
      * assert (ch = fnil).
        { destruct ch as [|ct cf]; [reflexivity|]. exfalso. destruct t as [tw tv|tl]; [apply (Hl ltac:(discriminate) name tw tv); reflexivity|].
          cbn [bm_spec] in Es. destruct (bm_specs tl off). discriminate Es. }
        subst ch. rewrite I1. reflexivity.
      * reflexivity.
    + cbn [hw_memory fst snd] in *. rewrite N.add_0_r in *. rewrite N.add_0_l in *. destruct (bm_metas r ch off) as (o2, c). cbn [fst snd] in *.
      split; [|exact I2]. rewrite <- I1. reflexivity.
  - intros off ind _ _ _. cbn. rewrite N.add_0_r. auto.
  - intros t IHt f IHf off ind (N1 & N2) E He. cbn [ids_f bm_metas want_forest] in *. unfold pick in E, He. rewrite map_app in E, He. fold (pick r (ids_t t)) in E, He. fold (pick r (ids_f f)) in E, He.
    assert (Hp : pick r (ids_t t ++ ids_f f) = pick r (ids_t t) ++ pick r (ids_f f)) by apply map_app. rewrite Hp.
    destruct (mem_split _ _ _ _ (pick_fits r (ids_t t) Hr) E) as (E1 & E2). rewrite (proj1 (mem_app _ _)) in *.
    destruct (IHt off ind N1 E1) as (A1 & A2); [clear - He; lia|]. destruct (bm_meta r t off) as (o1, m). cbn [fst snd] in *. subst o1.
    destruct (IHf _ ind N2 E2) as (B1 & B2); [clear - He; lia|]. destruct (bm_metas r f (off + fst (hw_memory (pick r (ids_t t))))) as (o2, l). cbn [fst snd fmt_nodes] in *.
    rewrite A1, B1. split; [reflexivity|]. rewrite B2. clear. lia.
Qed.
Lemma meta_off : forall r, (forall t off, fst (bm_meta r t off) = off + fst (hw_memory (pick r (ids_t t)))) /\
  (forall f off, fst (bm_metas r f off) = off + fst (hw_memory (pick r (ids_f f)))).
Proof.
  intros r. apply mtree_mut.
  - intros i ch IH off. cbn [ids_t bm_meta]. change (pick r (i :: ids_f ch)) with (nth i r (0%nat, None) :: pick r (ids_f ch)).
    destruct (nth i r (0%nat, None)) as (name, [t|]); cbn [hw_memory].
    + pose proof (proj1 (proj2 (proj1 end_le t off))) as H. destruct (bm_spec t off) as (o1, s). cbn [fst] in H. subst o1. specialize (IH (off + fst (hw_bits t))).
      destruct (bm_metas r ch (off + fst (hw_bits t))) as (o2, c). destruct (hw_bits t) as (w1, v1). destruct (hw_memory (pick r (ids_f ch))) as (w2, v2). cbn [fst] in *. rewrite IH. clear. lia.
    + specialize (IH off). destruct (bm_metas r ch off) as (o2, c). exact IH.
  - intros off. cbn. clear. lia.
  - intros t IHt f IHf off. cbn [ids_f bm_metas]. unfold pick. rewrite map_app. rewrite (proj1 (mem_app _ _)). fold (pick r (ids_t t)). fold (pick r (ids_f f)).
    specialize (IHt off). destruct (bm_meta r t off) as (o1, m). cbn [fst] in IHt. subst o1. specialize (IHf (off + fst (hw_memory (pick r (ids_t t))))).
    destruct (bm_metas r f (off + fst (hw_memory (pick r (ids_t t))))) as (o2, l). cbn [fst] in *. rewrite IHf. clear. lia.
Qed.
Lemma width_ok : forall r f off, f <> fnil -> ends_root r f -> off + fst (hw_memory (pick r (ids_f f))) <= data_width (snd (bm_metas r f off)).
Proof.
  intros r. induction f as [|(i, ch) f IH]; intros off Hn He; [congruence|].
  assert (Hp : pick r (ids_f (fcons (MT i ch) f)) = pick r (ids_t (MT i ch)) ++ pick r (ids_f f)) by apply map_app.
  rewrite Hp, (proj1 (mem_app _ _)). pose proof (proj1 (meta_off r) (MT i ch) off) as Ho. destruct f as [|t' f'].
  - destruct He as (-> & n & t & En & Hs). cbn [bm_metas bm_meta ids_t ids_f]. rewrite app_nil_r || idtac. unfold pick. cbn [map]. rewrite En. cbn [hw_memory].
    destruct (proj1 end_le t off) as (_ & _ & H3 & _). specialize (H3 Hs). destruct (bm_spec t off) as (o, s). destruct (hw_bits t) as (w, v). cbn [fst snd data_width] in *. rewrite H3. clear. lia.
  - assert (He' : ends_root r (fcons t' f')) by exact He. remember (fcons t' f') as f eqn:Ef. cbn [bm_metas].
    destruct (bm_meta r (MT i ch) off) as (o1, m). cbn [fst] in Ho. subst o1. specialize (IH (off + fst (hw_memory (pick r (ids_t (MT i ch))))) ltac:(rewrite Ef; discriminate) He').
    destruct (bm_metas r f (off + fst (hw_memory (pick r (ids_t (MT i ch)))))) as (o2, l). cbn [snd] in *. destruct m as (nm, ms, mc). cbn [data_width]. clear - IH. lia.
Qed.
Lemma dump_tree : forall r f junk, Forall rec_fits r -> ids_f f = seq 0 (length r) -> nice_f r f -> ends_root r f ->
  dump r f (on_bus r junk) = Some (want_forest r f 0).
Proof.
  intros r f junk Hf Hi Hn He. unfold dump. cbv zeta. rewrite bus_eq. rewrite read_ok. f_equal.
  assert (Hp : pick r (ids_f f) = r) by (rewrite Hi; apply pick_all).
  apply (proj2 (tree_ok (snd (hw_memory r) + 2 ^ fst (hw_memory r) * junk) (8 * data_size (snd (bm_metas r f 0))) r Hf)); [exact Hn| |]; rewrite Hp.
  - cbn [N.pow]. rewrite N.div_1_r. rewrite N.mul_comm, N.mod_add by apply p2nz. apply N.mod_small, mem_lt. exact Hf.
  - destruct f as [|t f].
    + destruct r; [cbn; lia|discriminate Hi].
    + pose proof (width_ok r (fcons t f) 0 ltac:(discriminate) He) as Hw. rewrite Hp in Hw. unfold data_size.
      pose proof (N.div_mod (data_width (snd (bm_metas r (fcons t f) 0)) + 7) 8 ltac:(discriminate)) as Hd.
      pose proof (N.mod_lt (data_width (snd (bm_metas r (fcons t f) 0)) + 7) 8 ltac:(discriminate)) as Hm. clear - Hw Hd Hm. lia.
Qed.

(** refutations *)
(** a child registered after another record *)
Definition r_order : recs := [(1%nat, Some (HNode (hcons 5 (HLeaf 8 1) hnil))); (2%nat, Some (HLeaf 8 2)); (3%nat, Some (HLeaf 8 3))].
Ltac cov := unfold covers; cbn [ids_f ids_t app length r_order]; split; [repeat (apply NoDup_cons; [cbn [In]; lia|]); apply NoDup_nil|intros i; cbn [In]; lia].
Lemma order_refuted : exists r f junk, covers r f /\ Forall rec_fits r /\ nice_f r f /\ ends_root r f /\ dump r f (on_bus r junk) <> Some (want_forest r f 0).
Proof.
  exists r_order, (fcons (MT 0 (fcons (MT 2 fnil) fnil)) (fcons (MT 1 fnil) fnil)), 0. split; [cov|].
  split; [repeat constructor|]. split; [cbn; repeat split; congruence|]. split; [cbn; split; [reflexivity|]; eexists _, _; split; reflexivity|]. vm_compute. discriminate.
Qed.
(** a visual container *)
Lemma container_refuted : exists r f junk, covers r f /\ Forall rec_fits r /\ ids_f f = seq 0 (length r) /\ nice_f r f /\ dump r f (on_bus r junk) <> Some (want_forest r f 0).
Proof.
  exists [(1%nat, None); (2%nat, Some (HLeaf 8 5))], (fcons (MT 0 (fcons (MT 1 fnil) fnil)) fnil), 0. split; [cov|].
  split; [repeat constructor|]. split; [reflexivity|]. split; [cbn; repeat split; congruence|]. vm_compute. discriminate.
Qed.
(** a child of a signal *)
Lemma child_refuted : exists r f junk t, covers r f /\ Forall rec_fits r /\ ids_f f = seq 0 (length r) /\ ends_root r f /\ dump r f (on_bus r junk) = Some t /\
  (exists n v, In (n, Some (HLeaf 8 v)) r /\ forall ind x, ~ In (ind, n, x) t).
Proof.
  exists [(1%nat, Some (HLeaf 8 5)); (2%nat, Some (HLeaf 8 7)); (3%nat, Some (HLeaf 8 9))], (fcons (MT 0 (fcons (MT 1 fnil) fnil)) (fcons (MT 2 fnil) fnil)), 0.
  eexists. split; [cov|]. split; [repeat constructor|]. split; [reflexivity|]. split; [cbn; split; [reflexivity|]; eexists _, _; split; reflexivity|]. split; [vm_compute; reflexivity|].
  exists 2%nat, 7. split; [right; left; reflexivity|]. intros ind x H. cbn in H. intuition congruence.
Qed.
