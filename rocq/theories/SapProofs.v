From Coq Require Import NArith List Lia.
From Verif Require Import Base SapModel SapSpec.
Import ListNotations.
Local Open Scope N_scope.

Definition hor (w : N) (l : list N) : N := fold_right (fun x acc => acc * 2 ^ w + x) 0 l.
Lemma concat_rev : forall w l, sg_concat w (rev l) = hor w l.
Proof. intros w l. unfold sg_concat, hor. rewrite <- fold_left_rev_right. rewrite rev_involutive. reflexivity. Qed.
Lemma pow_nz : forall a, 2 ^ a <> 0. Proof. intros a. apply N.pow_nonzero. lia. Qed.
Lemma hor_split : forall w v n s, hor w (map (fun j => sg_sel v (w * N.of_nat j) w) (seq s n)) = (v / 2 ^ (w * N.of_nat s)) mod 2 ^ (w * N.of_nat n).
Proof.
  intros w v n. induction n; intros s.
  - cbn [seq map hor fold_right]. rewrite N.mul_0_r. cbn [N.pow]. rewrite N.mod_1_r. reflexivity.
  - cbn [seq map hor fold_right]. fold (hor w (map (fun j => sg_sel v (w * N.of_nat j) w) (seq (S s) n))). rewrite IHn. unfold sg_sel.
    replace (w * N.of_nat (S n)) with (w + w * N.of_nat n) by lia. rewrite (N.pow_add_r 2 w).
    rewrite N.mod_mul_r by apply pow_nz. rewrite N.div_div by apply pow_nz. rewrite <- N.pow_add_r.
    replace (w * N.of_nat s + w) with (w * N.of_nat (S s)) by lia. lia.
Qed.
Lemma hor_full : forall w v n, v < 2 ^ (w * N.of_nat n) -> hor w (map (fun j => sg_sel v (w * N.of_nat j) w) (seq 0 n)) = v.
Proof. intros w v n H. rewrite hor_split. rewrite N.mul_0_r. cbn [N.pow]. rewrite N.div_1_r. apply N.mod_small. exact H. Qed.

(** what a word write does to one array *)
Definition wr (n : nat) (m : sg_mem) (i : nat) (v : N) : sg_mem :=
  fun k j => if (k <? n)%nat && (j =? i)%nat then sg_sel v (8 * N.of_nat k) 8 else m k j.
Definition d0 (d : option sg_mem) : sg_mem := match d with Some d => d | None => fun _ _ => 0 end.
Definition meq (a b : sg_mem) : Prop := forall k j, a k j = b k j.

Lemma set1s : forall c i v s (n : nat), sg_w c = 8 -> (i < sg_sz c)%nat -> (0 < n)%nat ->
  exists m d, fold_left (sg_set1 c i v) (seq 0 n) (Some s) = Some (mk_ss m (Some d)) /\ meq m (wr n (ss_val s) i v) /\ meq d (wr n (d0 (ss_def s)) i v).
Proof.
  intros c i v s n Hw Hi Hn. induction n; [lia|].
  assert (Hx : forall k, (sg_sel v (N.of_nat k * 8) 8 <? 2 ^ sg_w c) = true).
  { intros k. rewrite Hw. apply N.ltb_lt. unfold sg_sel. apply N.mod_lt. apply pow_nz. }
  rewrite seq_S, fold_left_app. cbn [fold_left Nat.add].
  assert (Hput : forall a b, meq a (wr n b i v) -> meq (sg_put a n i (sg_sel v (N.of_nat n * 8) 8)) (wr (S n) b i v)).
  { intros a b H k j. unfold sg_put. destruct (Nat.eqb_spec k n); destruct (Nat.eqb_spec j i); cbn [andb]; unfold wr.
    - subst. destruct (Nat.ltb_spec n (S n)); [|lia]. rewrite Nat.eqb_refl. cbn [andb]. f_equal. lia.
    - rewrite H. unfold wr. destruct (Nat.eqb_spec j i); [lia|]. rewrite !andb_false_r. reflexivity.
    - rewrite H. unfold wr. destruct (Nat.eqb_spec j i); [|lia]. destruct (Nat.ltb_spec k n); destruct (Nat.ltb_spec k (S n)); try lia; reflexivity.
    - rewrite H. unfold wr. destruct (Nat.eqb_spec j i); [lia|]. rewrite !andb_false_r. reflexivity. }
  destruct (Nat.eq_dec n 0) as [->|Hz].
  - cbn [seq fold_left]. unfold sg_set1. cbv zeta. destruct (Nat.ltb_spec i (sg_sz c)); [|lia]. rewrite Hx. cbn [andb].
    eexists _, _. split; [reflexivity|]. split; apply Hput; intros k j; unfold wr; destruct (Nat.ltb_spec k 0); try lia; reflexivity.
  - destruct IHn as (m & d & E & Hm & Hd); [lia|]. rewrite E. unfold sg_set1. cbv zeta. destruct (Nat.ltb_spec i (sg_sz c)); [|lia]. rewrite Hx. cbn [andb].
    eexists _, _. split; [reflexivity|]. cbn [ss_val ss_def]. split; apply Hput; assumption.
Qed.

(** item j read from one array *)
Definition word (c : sg_cfg) (m : sg_mem) (i : nat) : N := hor (sg_w c) (map (fun k => m k i) (seq 0 (sg_n c))).
Definition item (c : sg_cfg) (m : sg_mem) (i : nat) : N :=
  hor (sg_w c * N.of_nat (sg_n c)) (map (fun i2 => word c m (i * per_item c + i2)) (seq 0 (per_item c))).
Lemma getw_word : forall c m i, (i < sg_sz c)%nat -> sg_getw c m i = Some (word c m i).
Proof. intros c m i H. unfold sg_getw. destruct (Nat.ltb_spec i (sg_sz c)); [|lia]. rewrite map_rev, concat_rev. reflexivity. Qed.
Lemma all_some : forall A B (f : A -> option B) (g : A -> B) l, (forall x, In x l -> f x = Some (g x)) -> sg_all (map f l) = Some (map g l).
Proof.
  intros A B f g l. induction l; intros H; [reflexivity|]. cbn [map sg_all]. rewrite (H a) by (left; reflexivity).
  rewrite IHl; [reflexivity|]. intros x Hx. apply H. right. exact Hx.
Qed.
Lemma in_range : forall c i k, proper c -> (i < items c)%nat -> (k < per_item c)%nat -> (i * per_item c + k < sg_sz c)%nat.
Proof.
  intros c i k (_ & Hp & _) Hi Hk. unfold items in Hi.
  pose proof (Nat.mul_div_le (sg_sz c) (per_item c)). assert (S i * per_item c <= sg_sz c / per_item c * per_item c)%nat by (apply Nat.mul_le_mono_r; lia).
  cbn [Nat.mul] in H0. lia.
Qed.
Lemma get_item : forall c m i, proper c -> (i < items c)%nat -> sg_get c m i = Some (item c m i).
Proof.
  intros c m i Hc Hi.
  assert (H1 : per_item c = 1%nat -> sg_getw c m i = Some (item c m i)).
  { intros E. pose proof (in_range c i 0 Hc Hi). rewrite E in H. rewrite getw_word by lia. unfold item. rewrite E. cbn [seq map hor fold_right].
    rewrite N.mul_0_l, N.add_0_l. do 2 f_equal. lia. }
  unfold sg_get. unfold per_item in *. destruct (sg_wpi c) as [p|] eqn:E; [|apply H1; reflexivity].
  destruct (Nat.eqb_spec p 0); [destruct Hc as (_ & Hp & _); unfold per_item in Hp; rewrite E in Hp; lia|].
  destruct (Nat.eqb_spec p 1); [apply H1; assumption|]. cbn [orb].
  rewrite (all_some _ _ _ (fun i2 => word c m (i * p + i2))).
  - cbn [option_map]. rewrite map_rev, concat_rev. unfold item, per_item. rewrite E. reflexivity.
  - intros x Hx. apply getw_word. rewrite <- in_rev in Hx. apply in_seq in Hx. pose proof (in_range c i x Hc Hi) as H. unfold per_item in H. rewrite E in H. apply H. lia.
Qed.

(** several words *)
Lemma setw_all : forall c, sg_w c = 8 -> (0 < sg_n c)%nat -> forall l s, (forall iv, In iv l -> (fst iv < sg_sz c)%nat) -> l <> [] ->
  exists m d, fold_left (sg_setw c) l (Some s) = Some (mk_ss m (Some d)) /\
    meq m (fold_left (fun m iv => wr (sg_n c) m (fst iv) (snd iv)) l (ss_val s)) /\
    meq d (fold_left (fun m iv => wr (sg_n c) m (fst iv) (snd iv)) l (d0 (ss_def s))).
Proof.
  intros c Hw Hn l. assert (Hmeq : forall (l : list (nat * N)) a b, meq a b ->
    meq (fold_left (fun m iv => wr (sg_n c) m (fst iv) (snd iv)) l a) (fold_left (fun m iv => wr (sg_n c) m (fst iv) (snd iv)) l b)).
  { intros l0. induction l0 as [|x l0 IH]; intros a b H; [exact H|]. cbn [fold_left]. apply IH. intros k j. unfold wr. rewrite H. reflexivity. }
  assert (Htr : forall a b e, meq a b -> meq b e -> meq a e) by (intros a b e H1 H2 k j; rewrite H1; apply H2).
  induction l as [|iv l IH]; intros s Hl Hne; [congruence|]. cbn [fold_left].
  destruct (set1s c (fst iv) (snd iv) s (sg_n c) Hw) as (m & d & E & Hm & Hd); [apply Hl; left; reflexivity|exact Hn|].
  unfold sg_setw at 2. rewrite E. destruct l as [|iv' l].
  - exists m, d. split; [reflexivity|]. split; assumption.
  - destruct (IH (mk_ss m (Some d))) as (m2 & d2 & E2 & Hm2 & Hd2); [intros x Hx; apply Hl; right; exact Hx|discriminate|].
    exists m2, d2. split; [exact E2|]. cbn [ss_val ss_def d0] in Hm2, Hd2.
    split; (eapply Htr; [eassumption|]; apply Hmeq; assumption).
Qed.
Lemma wr_word : forall c m i v j, sg_w c = 8 -> v < 2 ^ (8 * N.of_nat (sg_n c)) -> word c (wr (sg_n c) m i v) j = if (j =? i)%nat then v else word c m j.
Proof.
  intros c m i v j Hw Hv. unfold word. rewrite Hw. destruct (Nat.eqb_spec j i) as [->|Hne].
  - etransitivity; [|exact (hor_full 8 v (sg_n c) Hv)]. f_equal. apply map_ext_in. intros k Hk. apply in_seq in Hk. unfold wr.
    destruct (Nat.ltb_spec k (sg_n c)); [|lia]. rewrite Nat.eqb_refl. reflexivity.
  - f_equal. apply map_ext. intros k. unfold wr. destruct (Nat.eqb_spec j i); [congruence|]. rewrite andb_false_r. reflexivity.
Qed.
Lemma meq_word : forall c a b j, meq a b -> word c a j = word c b j.
Proof. intros c a b j H. unfold word. f_equal. apply map_ext. intros k. apply H. Qed.
Lemma wr_words : forall c p base v, sg_w c = 8 ->
  forall q s m j, (s + q <= p)%nat ->
  word c (fold_left (fun m iv => wr (sg_n c) m (fst iv) (snd iv))
    (map (fun x => ((base + x)%nat, sg_sel v (8 * N.of_nat (sg_n c) * N.of_nat x) (8 * N.of_nat (sg_n c)))) (seq s q)) m) j =
  if ((base + s <=? j) && (j <? base + s + q))%nat then sg_sel v (8 * N.of_nat (sg_n c) * N.of_nat (j - base)) (8 * N.of_nat (sg_n c)) else word c m j.
Proof.
  intros c p base v Hw q. induction q; intros s m j Hs.
  - cbn [seq map fold_left]. destruct (Nat.leb_spec (base + s) j); destruct (Nat.ltb_spec j (base + s + 0)); cbn [andb]; try lia; reflexivity.
  - cbn [seq map fold_left fst snd]. rewrite IHq by lia. rewrite wr_word; [|exact Hw|apply N.mod_lt, pow_nz].
    destruct (Nat.leb_spec (base + S s) j); destruct (Nat.ltb_spec j (base + S s + q)); destruct (Nat.leb_spec (base + s) j);
      destruct (Nat.ltb_spec j (base + s + S q)); destruct (Nat.eqb_spec j (base + s)); cbn [andb]; try lia; try reflexivity.
    subst j. do 3 f_equal; lia.
Qed.
Lemma split_seq : forall v w p, v < 2 ^ (w * N.of_nat p) -> sg_split v w p = Some (map (fun j => sg_sel v (w * N.of_nat j) w) (seq 0 p)).
Proof. intros v w p H. unfold sg_split. apply N.ltb_lt in H. rewrite H. reflexivity. Qed.
Lemma combine_map : forall A B (f : A -> B) l, combine l (map f l) = map (fun x => (x, f x)) l.
Proof. induction l; [reflexivity|]. cbn [map combine]. rewrite IHl. reflexivity. Qed.

Lemma set_item : forall c s i v, proper c -> sg_w c = 8 -> (i < items c)%nat -> v < 2 ^ item_bits c ->
  exists m d, sg_set c s i v = Some (mk_ss m (Some d)) /\
    (forall j, item c m j = if (i =? j)%nat then v else item c (ss_val s) j) /\ (forall j, item c d j = if (i =? j)%nat then v else item c (d0 (ss_def s)) j).
Proof.
  intros c s i v Hc Hw Hi Hv.
  assert (Hn : (0 < sg_n c)%nat) by (destruct Hc; lia).
  assert (Hall : exists l, sg_set c s i v = fold_left (sg_setw c) l (Some s) /\ l =
     map (fun x => ((i * per_item c + x)%nat, sg_sel v (8 * N.of_nat (sg_n c) * N.of_nat x) (8 * N.of_nat (sg_n c)))) (seq 0 (per_item c))).
  { eexists. split; [|reflexivity].
    assert (H1 : per_item c = 1%nat -> sg_setw c (Some s) (i, v) = fold_left (sg_setw c)
      (map (fun x => ((i * per_item c + x)%nat, sg_sel v (8 * N.of_nat (sg_n c) * N.of_nat x) (8 * N.of_nat (sg_n c)))) (seq 0 (per_item c))) (Some s)).
    { intros E. rewrite E. cbn [seq map fold_left]. do 2 f_equal; [lia|]. unfold sg_sel. cbn [N.of_nat]. rewrite N.mul_0_r. cbn [N.pow]. rewrite N.div_1_r.
      symmetry. apply N.mod_small. unfold item_bits in Hv. rewrite E, Hw in Hv. cbn [N.of_nat Pos.of_succ_nat] in Hv. rewrite N.mul_1_r in Hv. exact Hv. }
    unfold sg_set. unfold per_item in *. destruct (sg_wpi c) as [p|] eqn:E; [|apply H1; reflexivity].
    destruct (Nat.eqb_spec p 0); [destruct Hc as (_ & Hp & _); unfold per_item in Hp; rewrite E in Hp; lia|].
    destruct (Nat.eqb_spec p 1); [apply H1; assumption|]. cbn [orb].
    rewrite split_seq; [|unfold item_bits, per_item in Hv; rewrite E in Hv; exact Hv]. rewrite combine_map, map_map. rewrite Hw. reflexivity. }
  destruct Hall as (l & E & El).
  destruct (setw_all c Hw Hn l s) as (m & d & E2 & Hm & Hd).
  { subst l. intros iv H. apply in_map_iff in H. destruct H as (x & <- & Hx). apply in_seq in Hx. cbn [fst]. apply in_range; [assumption..|lia]. }
  { subst l. destruct Hc as (_ & Hp & _). destruct (per_item c); [lia|]. discriminate. }
  exists m, d. split; [rewrite E; exact E2|].
  assert (Hres : forall a b, meq a (fold_left (fun m iv => wr (sg_n c) m (fst iv) (snd iv)) l b) ->
     forall j, item c a j = if (i =? j)%nat then v else item c b j).
  { intros a b Ha j. unfold item. set (p := per_item c) in *.
    assert (Hp : (1 <= p)%nat) by (destruct Hc as (_ & H & _); exact H).
    destruct (Nat.eqb_spec i j) as [<-|Hne].
    - etransitivity; [|exact (hor_full (sg_w c * N.of_nat (sg_n c)) v p Hv)]. f_equal. apply map_ext_in. intros x Hx. apply in_seq in Hx.
      rewrite (meq_word c _ _ _ Ha). subst l. rewrite (wr_words c p (i * p) v Hw p 0) by lia. rewrite Hw.
      destruct (Nat.leb_spec (i * p + 0) (i * p + x)); [|lia]. destruct (Nat.ltb_spec (i * p + x) (i * p + 0 + p)); [|lia]. cbn [andb].
      do 3 f_equal. lia.
    - f_equal. apply map_ext_in. intros x Hx. apply in_seq in Hx.
      rewrite (meq_word c _ _ _ Ha). subst l. rewrite (wr_words c p (i * p) v Hw p 0) by lia.
      destruct (Nat.leb_spec (i * p + 0) (j * p + x)); destruct (Nat.ltb_spec (j * p + x) (i * p + 0 + p)); cbn [andb]; try reflexivity.
      exfalso. assert (i < j \/ j < i)%nat as [Hlt|Hlt] by lia.
      + assert (S i * p <= j * p)%nat by (apply Nat.mul_le_mono_r; lia). cbn [Nat.mul] in *. lia.
      + assert (S j * p <= i * p)%nat by (apply Nat.mul_le_mono_r; lia). cbn [Nat.mul] in *. lia. }
  split; apply Hres; assumption.
Qed.

Lemma hor0 : forall A (w : N) (l : list A), hor w (map (fun _ => 0) l) = 0.
Proof. induction l; [reflexivity|]. cbn [map hor fold_right]. fold (hor w (map (fun _ : A => 0) l)). rewrite IHl. lia. Qed.
Lemma item0 : forall c j, item c (fun _ _ => 0) j = 0.
Proof. intros c j. unfold item, word. rewrite (hor0 nat). apply (hor0 nat). Qed.

Lemma run_items : forall c, proper c -> sg_w c = 8 -> forall l s, Forall (op_fits c) l ->
  exists s', sg_run c s l = Some s' /\ (forall j, item c (ss_val s') j = last_value l j (item c (ss_val s) j)) /\
    (forall j, item c (d0 (ss_def s')) j = last_value l j (item c (d0 (ss_def s)) j)) /\ (ss_def s' = None -> l = []).
Proof.
  intros c Hc Hw l. induction l as [|o l IH]; intros s Hl.
  - exists s. split; [reflexivity|]. split; [reflexivity|]. split; [reflexivity|]. reflexivity.
  - inversion Hl as [|? ? Ho Hl']; subst. unfold sg_run. cbn [fold_left]. destruct o as [i v|]; cbn [sg_do last_value].
    + destruct Ho as (Hi & Hv). destruct (set_item c s i v Hc Hw Hi Hv) as (m & d & E & Hm & Hd). rewrite E.
      destruct (IH (mk_ss m (Some d)) Hl') as (s' & E' & H1 & H2 & H3). exists s'. split; [exact E'|].
      split; [intros j; rewrite H1; cbn [ss_val]; rewrite Hm; reflexivity|]. split; [intros j; rewrite H2; cbn [ss_def d0]; rewrite Hd; reflexivity|].
      intros Hn. specialize (H3 Hn). subst l. cbn in E'. injection E' as <-. discriminate.
    + destruct (IH (sg_clean s) Hl') as (s' & E' & H1 & H2 & H3). exists s'. split; [exact E'|].
      split; [intros j; rewrite H1; cbn [sg_clean ss_val]; rewrite item0; reflexivity|].
      split; [intros j; rewrite H2; cbn [sg_clean ss_def d0]; rewrite item0; reflexivity|].
      intros Hn. specialize (H3 Hn). subst l. cbn in E'. injection E' as <-. discriminate.
Qed.

Lemma array_ok : forall c, proper c -> sg_w c = 8 -> forall l s, Forall (op_fits c) l ->
  exists s', sg_run c s l = Some s' /\
    forall j, (j < items c)%nat -> exists v0, sg_get c (ss_val s) j = Some v0 /\ sg_get c (ss_val s') j = Some (last_value l j v0).
Proof.
  intros c Hc Hw l s Hl. destruct (run_items c Hc Hw l s Hl) as (s' & E & H1 & _). exists s'. split; [exact E|].
  intros j Hj. exists (item c (ss_val s) j). rewrite !get_item by assumption. split; [reflexivity|]. rewrite H1. reflexivity.
Qed.
Lemma start_ok : forall c, proper c -> sg_w c = 8 -> forall l s, Forall (op_fits c) l -> l <> [] -> ss_def s = None ->
  exists s' d, sg_run c s l = Some s' /\ ss_def s' = Some d /\ forall j, (j < items c)%nat -> sg_get c d j = Some (last_value l j 0).
Proof.
  intros c Hc Hw l s Hl Hne Hs. destruct (run_items c Hc Hw l s Hl) as (s' & E & _ & H2 & H3).
  destruct (ss_def s') as [d|] eqn:Ed; [|exfalso; apply Hne, H3; reflexivity].
  exists s', d. split; [exact E|]. split; [exact Ed|]. intros j Hj. rewrite get_item by assumption. f_equal.
  pose proof (H2 j) as H. cbn [d0] in H. rewrite H, Hs. cbn [d0]. rewrite item0. reflexivity.
Qed.
Lemma len_ok : forall c p, proper c -> sg_wpi c = Some p -> sg_len c = Some (items c).
Proof.
  intros c p (_ & Hp & _) E. unfold sg_len, items, per_item in *. rewrite E in *. destruct (Nat.eqb_spec p 0); [lia|]. reflexivity.
Qed.
Lemma wide_refuted : exists c s i v s', proper c /\ op_fits c (SgSet i v) /\ sg_set c s i v = Some s' /\ sg_get c (ss_val s') i <> Some v.
Proof.
  exists (mk_sg 16 2 4 None), (mk_ss (fun _ _ => 0) None), 1%nat, 300. eexists.
  split; [repeat split; vm_compute; auto; discriminate|]. split; [split; vm_compute; [auto|reflexivity]|].
  split; [reflexivity|]. vm_compute. discriminate.
Qed.
Lemma narrow_refuted : exists c s i v, proper c /\ op_fits c (SgSet i v) /\ sg_set c s i v = None.
Proof.
  exists (mk_sg 4 2 4 None), (mk_ss (fun _ _ => 0) None), 1%nat, 255.
  split; [repeat split; vm_compute; auto; discriminate|]. split; [split; vm_compute; [auto|reflexivity]|]. reflexivity.
Qed.
Lemma len_refuted : exists c, proper c /\ (0 < items c)%nat /\ sg_len c = None.
Proof. exists (mk_sg 8 2 4 None). split; [repeat split; vm_compute; auto; discriminate|]. split; [vm_compute; auto|reflexivity]. Qed.
