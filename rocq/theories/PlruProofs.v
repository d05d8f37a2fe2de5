From Coq Require Import Lia.
From Verif Require Import Base BaseFacts PlruModel PlruSpec.

Lemma lru_widths w : lru_ok w = true -> (exists d, 1 <= d /\ w = 2 ^ d - 1) -> w = 1 \/ w = 3.
Proof.
  intros H (d & Hd & E). unfold lru_ok in H. apply orb_prop in H. destruct H as [H|H]; [|left; apply Nat.eqb_eq; exact H].
  apply andb_prop in H. destruct H as [H0 H]. apply negb_true_iff, Nat.eqb_neq in H0. apply Nat.eqb_eq in H.
  destruct d as [|[|[|d]]]; [lia|cbn in E; lia|right; cbn in E; lia|exfalso].
  assert (P : 2 ^ S (S (S d)) = 8 * 2 ^ d) by (cbn; lia). rewrite P in E. clear P.
  assert (Q : 1 <= 2 ^ d) by (apply Nat.neq_0_lt_0, Nat.pow_nonzero; lia).
  set (q := 2 ^ d) in *. clearbody q. set (l := Nat.log2 (w - 1)) in *. clearbody l.
  destruct l as [|[|l]]; cbn [Nat.pow] in H; try lia.
Qed.

Lemma selected_lt fuel : forall w i, Nat.odd w = true -> i < w -> w <= i + fuel -> Forall (fun j => j < w /\ w <= 2 * j + 1) (selected fuel w i).
Proof.
  induction fuel as [|f IH]; intros w i Ho Hi Hf.
  - lia.
  - cbn [selected]. destruct (Nat.leb_spec w (2 * i + 1)); [repeat constructor; lia|].
    assert (2 * i + 2 < w).
    { destruct (Nat.eq_dec w (2 * i + 2)) as [E|E]; [|lia]. subst w. replace (2 * i + 2) with (0 + 2 * (i + 1)) in Ho by lia.
      rewrite Nat.odd_add_mul_2 in Ho. discriminate Ho. }
    apply Forall_app. split; apply IH; try assumption; lia.
Qed.

Lemma mark_length r m : length (mark_use_many r m) = length r.
Proof. unfold mark_use_many. rewrite map_length, seq_length. reflexivity. Qed.

Lemma mark_nth r m i : i < length r -> nth i (mark_use_many r m) false =
  xorb (nth i r false) (parity (map (fun j => nth j (r ++ m) false) (selected (length r) (length r) i))).
Proof.
  intros H. unfold mark_use_many.
  rewrite (nth_indep _ false (xorb (nth 0 r false) (parity (map (fun j => nth j (r ++ m) false) (selected (length r) (length r) 0)))))
    by (rewrite map_length, seq_length; exact H).
  set (g := fun i => xorb (nth i r false) _). change (xorb _ _) with (g 0) at 1. rewrite (map_nth g), seq_nth by exact H. reflexivity.
Qed.

Lemma sel_bits r m i : Nat.odd (length r) = true -> i < length r ->
  map (fun j => nth j (r ++ m) false) (selected (length r) (length r) i) =
  map (fun j => nth j r false) (selected (length r) (length r) i).
Proof.
  intros Ho Hi. pose proof (selected_lt (length r) (length r) i Ho Hi) as H.
  specialize (H ltac:(lia)). apply map_ext_in. rewrite Forall_forall in H. intros j Hj. apply app_nth1, H, Hj.
Qed.

Lemma list_ext_nth (l1 l2 : list bool) : length l1 = length l2 -> (forall i, i < length l1 -> nth i l1 false = nth i l2 false) -> l1 = l2.
Proof. intros E H. apply (nth_ext l1 l2 false false E H). Qed.

Lemma mark_ignores r m m' : Nat.odd (length r) = true -> mark_use_many r m = mark_use_many r m'.
Proof.
  intros Ho. apply list_ext_nth; [rewrite !mark_length; reflexivity|]. rewrite mark_length. intros i Hi.
  rewrite !mark_nth by exact Hi. rewrite !sel_bits by assumption. reflexivity.
Qed.

Lemma parity_falses (l : list nat) : parity (map (fun _ => false) l) = false.
Proof. unfold parity. induction l as [|x l IH]; [reflexivity|]. exact IH. Qed.

Lemma mark_stuck r m m' : Nat.odd (length r) = true -> mark_use_many (mark_use_many r m) m' = mark_use_many r m.
Proof.
  intros Ho. set (r' := mark_use_many r m). assert (L : length r' = length r) by apply mark_length.
  apply list_ext_nth; [rewrite mark_length; reflexivity|]. rewrite mark_length. intros i Hi.
  rewrite mark_nth by exact Hi. rewrite sel_bits by (rewrite ?L; rewrite ?L in Hi; assumption).
  rewrite (map_ext_in _ (fun _ => false)); [rewrite parity_falses, xorb_false_r; reflexivity|].
  intros j Hj. pose proof (selected_lt (length r') (length r') i) as H. rewrite L in *. specialize (H Ho Hi ltac:(lia)).
  rewrite Forall_forall in H. specialize (H j Hj). destruct H as [Hj1 Hj2].
  unfold r'. rewrite mark_nth by exact Hj1. rewrite sel_bits by assumption.
  destruct (length r) as [|w]; [lia|]. cbn [selected]. destruct (Nat.leb_spec (S w) (2 * j + 1)); [|lia].
  cbn. destruct (nth j r false); reflexivity.
Qed.

(** the same for any sequence of uses *)
Lemma mark_many_stuck r ms m : Nat.odd (length r) = true ->
  fold_left mark_use_many ms (mark_use_many r m) = mark_use_many r m.
Proof.
  intros Ho. induction ms as [|m' ms IH]; [reflexivity|]. cbn [fold_left]. rewrite mark_stuck by exact Ho. exact IH.
Qed.

Lemma victim2 b : victim [b] = Some (if b then 0 else 1).
Proof. destruct b; reflexivity. Qed.
Lemma victim4 b0 b1 b2 : victim [b0; b1; b2] = Some (if b0 then (if b2 then 2 else 3) else (if b1 then 0 else 1)).
Proof. destruct b0, b1, b2; reflexivity. Qed.

Lemma never_kept r : length r = 1 \/ length r = 3 -> ~ used_is_kept r.
Proof.
  intros H K. destruct r as [|b0 [|b1 [|b2 [|]]]]; try (cbn in H; lia).
  - apply (K 1); [cbn; lia|]. destruct b0; reflexivity.
  - set (k := if xorb b0 (xorb b1 b2) then 3 else 1). apply (K k); [unfold k; destruct b0, b1, b2; cbn; lia|].
    unfold k. destruct b0, b1, b2; reflexivity.
Qed.

Lemma doc_table_bad : (forall b0 b1 b2, victim [b0; b1; b2] <> Some (doc_replace b0 b1 b2)) /\
  (exists k b0 b1 b2, mark_use_many [b0; b1; b2] (one_item 4 k) <> doc_next k b0 b1 b2).
Proof.
  split.
  - intros [] [] []; discriminate.
  - exists 0, false, false, false. discriminate.
Qed.

Lemma plru_half b0 b1 b2 :
  (exists v, victim [b0; b1; b2] = Some v /\ v / 2 = doc_replace b0 b1 b2 / 2) /\ exists v, victim [b0] = Some v /\ v < 2.
Proof.
  split.
  - eexists. split; [apply victim4|]. destruct b0, b1, b2; reflexivity.
  - eexists. split; [apply victim2|]. destruct b0; lia.
Qed.
