From Verif Require Import Base BaseFacts CamModel CamSpec.

Lemma set_nth_length {A} (l : list A) i v : length (set_nth l i v) = length l.
Proof. revert i. induction l as [|x l IH]; intros [|i]; cbn; auto. Qed.
Lemma set_nth_same {A} (l : list A) i v : i < length l -> nth_error (set_nth l i v) i = Some v.
Proof. revert i. induction l as [|x l IH]; intros [|i] H; cbn in *; try lia; [reflexivity|]. apply IH. lia. Qed.
Lemma set_nth_other {A} (l : list A) i j v : i <> j -> nth_error (set_nth l i v) j = nth_error l j.
Proof. revert i j. induction l as [|x l IH]; intros [|i] [|j] H; cbn; try reflexivity; try congruence. apply IH. congruence. Qed.

Lemma cam_length h m : length (final cam_step m h) = length m.
Proof.
  revert m. induction h as [|c h IH]; intros m; [reflexivity|]. rewrite final_cons, IH. cbn [cam_step fst].
  destruct (c_wvld c); [apply set_nth_length|reflexivity].
Qed.

Lemma cam_content h ITEMS i : i < ITEMS ->
  nth_error (final cam_step (cam_init ITEMS) h) i =
  Some match last_write h i with Some c => cam_word (c_wkey c) (c_wflag c) | None => 0%N end.
Proof.
  intros Hi. induction h as [|c h IH] using rev_ind.
  - cbn [last_write rev find]. unfold final. cbn [run fst]. unfold cam_init. rewrite (nth_error_nth' _ 0%N) by (rewrite repeat_length; exact Hi).
    rewrite nth_repeat. reflexivity.
  - rewrite final_snoc. unfold last_write. rewrite rev_unit. cbn [find]. cbn [cam_step fst].
    assert (length (final cam_step (cam_init ITEMS) h) = ITEMS) as Hl by (rewrite cam_length; apply repeat_length).
    destruct (c_wvld c); [|cbn [andb]; exact IH]. cbn [andb]. destruct (Nat.eqb_spec (c_waddr c) i) as [->|E].
    + apply set_nth_same. rewrite Hl. exact Hi.
    + rewrite set_nth_other by exact E. exact IH.
Qed.

Lemma cam_word_inj k f k' : cam_word k f = cam_word k' true <-> f = true /\ k = k'.
Proof. unfold cam_word. destruct f; cbn [N.b2n]; split; intros; try lia; split; try reflexivity; try lia; exfalso; lia. Qed.

Lemma c32 : forall (ITEMS : nat) (h : list cam_in) (c : cam_in),
  let o := snd (cam_step (final cam_step (cam_init ITEMS) h) c) in
  length (c_odata o) = ITEMS /\
  (forall i, i < ITEMS -> nth i (c_odata o) false = true <-> holds h i (c_mkey c)) /\
  c_ovld o = c_mvld c /\ c_mrd o = c_ordy c /\ c_wrd o = true.
Proof.
  intros ITEMS h c o. unfold o. cbn [cam_step snd c_odata c_ovld c_mrd c_wrd]. clear o.
  split; [rewrite map_length, cam_length; apply repeat_length|]. split; [|auto].
  intros i Hi. pose proof (cam_content h ITEMS i Hi) as Hc.
  apply (map_nth_error (fun w => N.eqb w (cam_word (c_mkey c) true))) in Hc.
  rewrite (nth_error_nth _ _ false Hc). clear Hc. rewrite N.eqb_eq. unfold holds.
  destruct (last_write h i) as [w|].
  - rewrite cam_word_inj. split; [intros [H1 H2]; exists w; auto|intros (w' & E & H1 & H2); injection E as <-; auto].
  - split; [unfold cam_word; cbn [N.b2n]; intros H; exfalso; lia|intros (w' & E & _); discriminate].
Qed.

Lemma c32_addr : forall k ITEMS, 2 <= ITEMS -> 2 ^ k < ITEMS -> ITEMS <= 2 ^ S k -> ITEMS <> 2 ^ k + 1 -> ITEMS <= 2 ^ cam_addr_width ITEMS.
Proof.
  intros k ITEMS H2 Hk1 Hk2 Hn. unfold cam_addr_width, log2ceil.
  destruct (Nat.leb_spec (ITEMS - 1) 1); [change (2 ^ 1) with 2; lia|].
  assert (2 ^ k < ITEMS - 1) as Hk by lia.
  rewrite (Nat.log2_up_unique (ITEMS - 1) (S k)); [exact Hk2|lia|]. cbn [Nat.pred]. split; [exact Hk|lia].
Qed.

Lemma c32_addr_bad : forall k, 1 <= k -> let ITEMS := 2 ^ k + 1 in 2 ^ cam_addr_width ITEMS < ITEMS.
Proof.
  intros k Hk ITEMS. unfold ITEMS, cam_addr_width, log2ceil. replace (2 ^ k + 1 - 1) with (2 ^ k) by lia.
  destruct (Nat.leb_spec (2 ^ k) 1).
  - assert (2 ^ 1 <= 2 ^ k) by (apply Nat.pow_le_mono_r; lia). change (2 ^ 1) with 2 in *. lia.
  - rewrite Nat.log2_up_pow2 by lia. lia.
Qed.

Definition wr (a : nat) (k : N) (f : bool) : cam_in := mk_ci false 0 false true a k f.
Definition lk (k : N) : cam_in := mk_ci true k true false 0 0 false.
