From Verif Require Import Base BaseFacts CutModel CutSpec.

(** byte enables *)
Lemma expand_cons : forall b m, expand_byte_mask_to_bit_mask (b :: m) = repeat b 8 ++ expand_byte_mask_to_bit_mask m.
Proof. intros b m. unfold expand_byte_mask_to_bit_mask, Concat. rewrite !rev_involutive. reflexivity. Qed.
Lemma expand_length : forall m, length (expand_byte_mask_to_bit_mask m) = 8 * length m.
Proof. induction m as [|b m IH]; [reflexivity|]. rewrite expand_cons, app_length, IH, repeat_length. cbn [length]. lia. Qed.
Lemma expand_nth : forall m k, nth k (expand_byte_mask_to_bit_mask m) false = nth (k / 8) m false.
Proof.
  induction m as [|b m IH]; intros k.
  - change (expand_byte_mask_to_bit_mask []) with (@nil bool). destruct k, (_ / 8); reflexivity.
  - rewrite expand_cons. destruct (Nat.lt_ge_cases k 8) as [H|H].
    + rewrite app_nth1 by (rewrite repeat_length; exact H). rewrite Nat.div_small by exact H. cbn [nth]. do 8 (destruct k; [reflexivity|]). lia.
    + rewrite app_nth2 by (rewrite repeat_length; exact H). rewrite repeat_length, IH.
      replace (k / 8) with (S ((k - 8) / 8)); [reflexivity|]. replace k with (k - 8 + 1 * 8) at 2 by lia. rewrite Nat.div_add by lia. lia.
Qed.
Lemma zip_nth : forall (f : bool -> bool -> bool) a b k, length a = length b -> k < length a ->
  nth k (map (fun p => f (fst p) (snd p)) (combine a b)) false = f (nth k a false) (nth k b false).
Proof. intros f. induction a as [|x a IH]; intros [|y b] k L H; cbn in *; try lia. destruct k; [reflexivity|]. apply IH; lia. Qed.
Lemma zip_length : forall (f : bool * bool -> bool) a b, length a = length b -> length (map f (combine a b)) = length a.
Proof. intros f a b L. rewrite map_length, combine_length. lia. Qed.
Lemma bnot_nth : forall a k, k < length a -> nth k (bnot a) false = negb (nth k a false).
Proof. induction a as [|x a IH]; intros k H; cbn in H; [lia|]. destruct k; [reflexivity|]. apply IH. lia. Qed.
Lemma write_ok : forall current new mask, length current = 8 * length mask -> length new = 8 * length mask ->
  length (apply_write_with_mask current new mask) = length current /\
  forall k, k < length current -> nth k (apply_write_with_mask current new mask) false = written_bit current new mask k.
Proof.
  intros cur new mask Lc Ln. pose proof (expand_length mask) as Lm. unfold apply_write_with_mask, set_and_clear, written_bit.
  set (m := expand_byte_mask_to_bit_mask mask) in *.
  assert (L1 : length (bnot m) = length m) by apply map_length.
  assert (L2 : length (band cur (bnot m)) = length cur) by (apply zip_length; lia).
  assert (L3 : length (band new m) = length new) by (apply zip_length; lia).
  split; [unfold bor; rewrite zip_length; lia|].
  intros k Hk. unfold bor. rewrite (zip_nth orb) by lia. unfold band. rewrite !(zip_nth andb) by lia. rewrite bnot_nth by lia. unfold m. rewrite expand_nth.
  destruct (nth (k / 8) mask false), (nth k cur false), (nth k new false); reflexivity.
Qed.
(** extension *)
Lemma closest_small : forall w, w <> 0 -> w <> 8 -> closest w < w.
Proof.
  intros w H0 H8. unfold closest. destruct (Nat.lt_ge_cases w 8) as [H|H].
  - rewrite (Nat.div_small w 8 H). cbn. lia.
  - pose proof (Nat.div_mod w 8 ltac:(lia)) as E. pose proof (Nat.mod_upper_bound w 8 ltac:(lia)) as B.
    pose proof (Nat.div_mod (w / 8 + 7) 8 ltac:(lia)) as E2. pose proof (Nat.mod_upper_bound (w / 8 + 7) 8 ltac:(lia)) as B2. lia.
Qed.
Lemma extend_one : forall sig, length sig = 8 -> exists r, extend_to_width_multiple_of_8 sig = Some r /\ is_extension sig r.
Proof. intros sig L. unfold extend_to_width_multiple_of_8. rewrite L. exists sig. split; [reflexivity|]. exists 0. rewrite app_nil_r, L. repeat split. lia. Qed.
Lemma extend_none : forall sig, sig <> [] -> length sig <> 8 -> extend_to_width_multiple_of_8 sig = None.
Proof.
  intros sig H0 H8. unfold extend_to_width_multiple_of_8. assert (length sig <> 0) by (destruct sig; [congruence|cbn; lia]).
  pose proof (closest_small (length sig) H H8) as C. destruct (Nat.eqb_spec (closest (length sig)) (length sig)); [lia|]. apply Nat.ltb_lt in C. rewrite C. reflexivity.
Qed.
Lemma extension_exists : forall sig, exists r, is_extension sig r.
Proof.
  intros sig. pose proof (Nat.div_mod (length sig) 8 ltac:(lia)) as E. pose proof (Nat.mod_upper_bound (length sig) 8 ltac:(lia)) as B.
  destruct (Nat.eq_dec (length sig mod 8) 0) as [Z|Z].
  - exists sig, 0. rewrite app_nil_r. repeat split; [lia|exact Z].
  - exists (sig ++ repeat false (8 - length sig mod 8)), (8 - length sig mod 8). split; [lia|]. split; [reflexivity|].
    rewrite app_length, repeat_length. symmetry. apply (Nat.mod_unique _ 8 (length sig / 8 + 1)); lia.
Qed.
(** the read port *)
Lemma set_length : forall (l : list N) a d, a < length l -> length (firstn a l ++ d :: skipn (S a) l) = length l.
Proof. intros l a d H. rewrite app_length, firstn_length. cbn [length]. rewrite skipn_length. lia. Qed.
Lemma set_nth_error : forall (l : list N) a d i, a < length l -> nth_error (firstn a l ++ d :: skipn (S a) l) i = if a =? i then Some d else nth_error l i.
Proof.
  induction l as [|x l IH]; intros a d i H; [cbn in H; lia|]. destruct a, i; try reflexivity. cbn in H. cbn [firstn skipn app nth_error Nat.eqb]. apply IH. lia.
Qed.
Lemma last_snoc : forall i ws w, last_written i (ws ++ [w]) = match w with Some (a, d) => if a =? i then d else last_written i ws | None => last_written i ws end.
Proof.
  intros i ws w. induction ws as [|[(b, e)|] ws IH]; cbn [app last_written existsb].
  - destruct w as [(a, d)|]; [rewrite andb_true_r|]; reflexivity.
  - rewrite existsb_app, IH. cbn [existsb]. destruct w as [(a, d)|]; [|rewrite !orb_false_r; reflexivity].
    destruct (a =? i); rewrite ?orb_true_r, ?orb_false_r; cbn [negb orb]; rewrite ?andb_false_r; reflexivity.
  - exact IH.
Qed.
Lemma cam_run : forall items ins, items <= 2 ^ cam_aw items -> Forall (fun i => match fst i with Some (a, _) => a < items | None => True end) ins ->
  let mem := final (cam_step items) (cam_init items) ins in length mem = items /\ forall i, i < items -> nth_error mem i = Some (last_written i (map fst ins)).
Proof.
  intros items ins Hw. cbv zeta. induction ins as [|x ins IH] using rev_ind; intros Hf.
  - rewrite final_nil. unfold cam_init. split; [apply repeat_length|]. intros i Hi. cbn [map last_written]. apply nth_error_repeat. exact Hi.
  - apply Forall_app in Hf. destruct Hf as (Hf & Hx). apply Forall_inv in Hx. destruct (IH Hf) as (L & H). rewrite final_snoc, map_app. cbn [map].
    set (mem := final (cam_step items) (cam_init items) ins) in *. destruct x as (w, ra). unfold cam_step. cbn [fst snd] in *. destruct w as [(a, d)|].
    + assert (Ea : wrap (cam_aw items) a = a) by (apply Nat.mod_small; lia). rewrite Ea, L. assert (Hb : (a <? items) = true) by (apply Nat.ltb_lt; exact Hx). rewrite Hb.
      split; [rewrite set_length; lia|]. intros i Hi. rewrite set_nth_error, last_snoc by lia. destruct (a =? i); [reflexivity|]. apply H. exact Hi.
    + split; [exact L|]. intros i Hi. rewrite last_snoc. apply H. exact Hi.
Qed.
(** all items have an address unless ITEMS - 1 is a power of two *)
Lemma aw_enough : forall items, (forall k, 0 < k -> items <> 2 ^ k + 1) -> items <= 2 ^ cam_aw items.
Proof.
  intros items Hp. unfold cam_aw. pose proof (log2ceil_ge (items - 1)) as G. pose proof (log2ceil_pos (items - 1)) as P. specialize (Hp (log2ceil (items - 1)) P). lia.
Qed.
Lemma cam_reads : forall items ins w i, (forall k, 0 < k -> items <> 2 ^ k + 1) ->
  Forall (fun x => match fst x with Some (a, _) => a < items | None => True end) ins -> i < items ->
  snd (cam_step items (final (cam_step items) (cam_init items) ins) (w, i)) = Some (last_written i (map fst ins)).
Proof.
  intros items ins w i Hp Hf Hi. pose proof (aw_enough items Hp) as Hw. destruct (cam_run items ins Hw Hf) as (_ & H). unfold cam_step at 1. cbn [snd].
  assert (Ei : wrap (cam_aw items) i = i) by (apply Nat.mod_small; lia). rewrite Ei. apply H. exact Hi.
Qed.
Lemma aw_pow : forall k, 0 < k -> cam_aw (2 ^ k + 1) = k.
Proof.
  intros k Hk. unfold cam_aw. replace (2 ^ k + 1 - 1) with (2 ^ k) by lia. unfold log2ceil. assert (2 ^ 1 <= 2 ^ k) by (apply Nat.pow_le_mono_r; lia). cbn in H.
  destruct (Nat.leb_spec (2 ^ k) 1); [lia|]. apply Nat.log2_up_pow2. lia.
Qed.
(** the last item and the item 0 share the address *)
Lemma cam_alias : forall k d, 0 < k -> d <> 0%N -> let items := 2 ^ k + 1 in
  snd (cam_step items (final (cam_step items) (cam_init items) [(Some (0, d), 0)]) (None, items - 1)) = Some d /\ last_written (items - 1) [Some (0, d)] = 0%N.
Proof.
  intros k d Hk Hd. cbv zeta. assert (H0 : 2 ^ k <> 0) by (apply Nat.pow_nonzero; lia). split.
  - rewrite final_cons, final_nil. unfold cam_step. cbn [fst snd]. rewrite (aw_pow k Hk). unfold wrap. rewrite Nat.mod_0_l by exact H0.
    replace (2 ^ k + 1 - 1) with (2 ^ k) by lia. rewrite Nat.mod_same by exact H0. unfold cam_init. rewrite repeat_length, Nat.add_1_r. reflexivity.
  - cbn [last_written existsb negb]. destruct (Nat.eqb_spec 0 (2 ^ k + 1 - 1)); [lia|]. reflexivity.
Qed.
