From Verif Require Import Base BaseFacts OneHotModel.

(** index of the first set bit, the last index if there is none *)
Fixpoint first_set (l : list bool) : nat :=
  match l with
  | [] => 0
  | [b] => 0
  | b :: l' => if b then 0 else S (first_set l')
  end.

Lemma loop_rev l : forall (pre : list bool) n, n = length pre + length l -> l <> [] ->
  fold_left (fun (p : option nat * nat) (s : bool) =>
         let '(acc, i) := p in
         let c := n - i - 1 in
         (Some (match acc with None => c | Some a => if s then c else a end), i + 1)) (rev l) (None, 0)
  = (Some (length pre + first_set l), length l).
Proof.
  induction l as [|b l IH]; intros pre n Hn Hl; [congruence|].
  simpl rev. rewrite fold_left_app. destruct l as [|b' l].
  - simpl in *. f_equal; f_equal; lia.
  - rewrite (IH (pre ++ [b]) n).
    + cbn [fold_left first_set length]. f_equal; [|lia].
      rewrite app_length. cbn [length] in *. destruct b; f_equal; lia.
    + rewrite app_length. simpl in *. lia.
    + discriminate.
Qed.

Lemma onehot_to_bin_eq l : l <> [] -> onehot_to_bin l = Some (first_set l).
Proof. intros H. unfold onehot_to_bin, onehot_to_bin_loop. exact (f_equal fst (loop_rev l [] (length l) eq_refl H)). Qed.

Lemma first_set_spec l i : nth_error l i = Some true -> (forall j, j < i -> nth_error l j = Some false) -> first_set l = i.
Proof.
  revert i. induction l as [|b l IH]; intros i Hi Hlow; [destruct i; discriminate|].
  destruct i as [|i].
  - injection Hi as ->. destruct l; reflexivity.
  - pose proof (Hlow 0 ltac:(lia)) as E. injection E as ->. destruct l as [|b' l]; [destruct i; discriminate|].
    change (first_set (false :: b' :: l)) with (S (first_set (b' :: l))). f_equal. apply IH; [exact Hi|].
    intros j Hj. exact (Hlow (S j) ltac:(lia)).
Qed.

Lemma first_set_lt l : l <> [] -> first_set l < length l.
Proof.
  induction l as [|b l IH]; intros H; [congruence|]. destruct l as [|b' l]; [simpl; lia|].
  change (first_set (b :: b' :: l)) with (if b then 0 else S (first_set (b' :: l))).
  specialize (IH ltac:(discriminate)). destruct b; simpl in *; lia.
Qed.

Lemma c22_enc : forall w v en i, v < 2 ^ w -> i < 2 ^ w ->
  length (bin_to_onehot w v en) = 2 ^ w /\ nth_error (bin_to_onehot w v en) i = Some (en && (v =? i)).
Proof.
  intros w v en i Hv Hi. unfold bin_to_onehot. destruct en.
  - split; [rewrite map_length, seq_length; reflexivity|].
    rewrite (nth_error_nth' _ false) by (rewrite map_length, seq_length; exact Hi). f_equal.
    rewrite (nth_indep _ false (v =? 0)) by (rewrite map_length, seq_length; exact Hi).
    rewrite (map_nth (fun i => v =? i)), seq_nth by exact Hi. reflexivity.
  - split; [apply repeat_length|]. apply nth_error_repeat. exact Hi.
Qed.

Lemma c22_dec : forall (l : list bool), l <> [] ->
  exists r, fst (mod_onehot_to_bin l) = Some r /\ r < 2 ^ log2ceil (length l) /\
    (forall i, nth_error l i = Some true -> (forall j, j < i -> nth_error l j = Some false) -> r = i) /\
    (snd (mod_onehot_to_bin l) = true <-> In true l).
Proof.
  intros l Hl. exists (first_set l). split; [apply onehot_to_bin_eq; exact Hl|].
  split; [pose proof (first_set_lt l Hl); pose proof (log2ceil_ge (length l)); lia|].
  split; [intros i; apply first_set_spec|].
  cbn [mod_onehot_to_bin snd]. rewrite existsb_exists. split.
  - intros [x [H ->]]. exact H.
  - intros H. exists true. auto.
Qed.

Lemma c22_round : forall w v en, v < 2 ^ w ->
  mod_onehot_to_bin (bin_to_onehot w v en) = (Some (if en then v else 2 ^ w - 1), en).
Proof.
  intros w v en Hv.
  assert (length (bin_to_onehot w v en) = 2 ^ w) as Hl by (apply (c22_enc w v en v Hv Hv)).
  assert (bin_to_onehot w v en <> []) as Hne.
  { intros E. rewrite E in Hl. simpl in Hl. pose proof (pow2_pos w). lia. }
  unfold mod_onehot_to_bin. rewrite (onehot_to_bin_eq _ Hne). f_equal.
  - f_equal. destruct en.
    + apply first_set_spec.
      * destruct (c22_enc w v true v Hv Hv) as [_ E]. rewrite E, Nat.eqb_refl. reflexivity.
      * intros j Hj. destruct (c22_enc w v true j Hv ltac:(lia)) as [_ E]. rewrite E.
        destruct (Nat.eqb_spec v j); [lia|reflexivity].
    + unfold bin_to_onehot. generalize (pow2_pos w). generalize (2 ^ w). intros n Hn. clear.
      induction n as [|n IH]; [reflexivity|]. destruct n as [|n]; [reflexivity|].
      change (first_set (repeat false (S (S n)))) with (S (first_set (repeat false (S n)))). rewrite IH. lia.
  - destruct en; [|unfold bin_to_onehot; generalize (2 ^ w); intros n; induction n; simpl; auto].
    apply existsb_exists. exists true. split; [|reflexivity].
    destruct (c22_enc w v true v Hv Hv) as [_ E]. rewrite Nat.eqb_refl in E. apply nth_error_In in E. exact E.
Qed.

Lemma c22_mod : forall dw v en, 0 < dw -> v < dw ->
  match mod_bin_to_onehot dw v en with
  | Some l => length l = dw /\ forall i, i < dw -> nth_error l i = Some (en && (v =? i))
  | None => forall w, dw <> 2 ^ w
  end.
Proof.
  intros dw v en Hd Hv. unfold mod_bin_to_onehot. destruct (Nat.eqb_spec dw 1) as [->|H1].
  - split; [reflexivity|]. intros i Hi. assert (i = 0) as -> by lia. assert (v = 0) as -> by lia.
    rewrite andb_true_r. reflexivity.
  - destruct (Nat.eqb_spec (2 ^ log2ceil dw) dw) as [E|E].
    + split; [rewrite <- E at 2; apply (c22_enc (log2ceil dw) v en v); lia|].
      intros i Hi. apply (c22_enc (log2ceil dw) v en i); lia.
    + intros w ->. apply E. f_equal. unfold log2ceil. destruct (Nat.leb_spec (2 ^ w) 1); [lia|].
      apply Nat.log2_up_pow2. lia.
Qed.
