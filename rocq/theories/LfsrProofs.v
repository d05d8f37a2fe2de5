From Verif Require Import Base BaseFacts LfsrModel LfsrSpec.

Lemma state_S poly s n : lfsr_state poly s (S n) = next_bit poly (lfsr_state poly s n) :: removelast (lfsr_state poly s n).
Proof.
  unfold lfsr_state. replace (S n) with (n + 1) by lia. rewrite repeat_app. cbn [repeat]. rewrite final_snoc. reflexivity.
Qed.
Lemma removelast_length {A} (l : list A) : length (removelast l) = length l - 1.
Proof.
  destruct l as [|a l]; [reflexivity|]. rewrite (app_removelast_last a (l := a :: l)) at 2 by discriminate.
  rewrite app_length. simpl. lia.
Qed.
Lemma state_length poly s n : s <> [] -> length (lfsr_state poly s n) = length s.
Proof.
  intros H. assert (0 < length s) by (destruct s; [congruence|simpl; lia]). induction n as [|n IH]; [reflexivity|].
  rewrite state_S. cbn [length]. rewrite removelast_length, IH. lia.
Qed.

Lemma fold_xor l a : fold_left xorb l a = xorb a (fold_left xorb l false).
Proof.
  revert a. induction l as [|b l IH]; intros a; cbn [fold_left]; [rewrite xorb_false_r; reflexivity|].
  rewrite IH, xorb_false_l, (IH b). apply eq_sym, eq_sym. rewrite xorb_assoc. reflexivity.
Qed.
Lemma next_bit_snoc poly s p b : length poly = length s -> next_bit (poly ++ [p]) (s ++ [b]) = xorb (next_bit poly s) (p && b).
Proof.
  unfold next_bit. generalize false. revert s. induction poly as [|q poly IH]; intros [|x s] a H; try discriminate H; [reflexivity|].
  cbn [app combine map fold_left fst snd]. apply IH. simpl in H. lia.
Qed.
Lemma next_bit_zero poly n : next_bit poly (repeat false n) = false.
Proof.
  unfold next_bit. revert n. induction poly as [|p poly IH]; intros [|n]; try reflexivity.
  cbn [repeat combine map fold_left fst snd]. rewrite andb_false_r. apply IH.
Qed.

(** the last tap makes the transition injective *)
Lemma step_inj poly a b : last poly false = true -> length a = length poly -> length b = length poly ->
  next_bit poly a :: removelast a = next_bit poly b :: removelast b -> a = b.
Proof.
  intros Hl Ha Hb E. injection E as E1 E2.
  destruct (exists_last (l := poly)) as [pl [p Ep]]; [intros ->; discriminate|]. subst poly. rewrite last_last in Hl. subst p.
  rewrite app_length in Ha, Hb. simpl in Ha, Hb.
  destruct (exists_last (l := a)) as [a0 [x Ex]]; [intros ->; simpl in Ha; lia|].
  destruct (exists_last (l := b)) as [b0 [y Ey]]; [intros ->; simpl in Hb; lia|]. subst a b.
  rewrite !removelast_last in E2. subst b0. rewrite app_length in Ha. simpl in Ha.
  rewrite !next_bit_snoc in E1 by lia. f_equal. f_equal. cbn [andb] in E1. destruct (next_bit pl a0), x, y; simpl in E1; congruence.
Qed.

Definition zeros (s : list bool) : Prop := s = repeat false (length s).

Lemma nonzero_step poly s : last poly false = true -> length s = length poly -> ~ zeros s ->
  ~ zeros (next_bit poly s :: removelast s).
Proof.
  intros Hl Hs Hn Hz. apply Hn. assert (0 < length poly) as Hp by (destruct poly; [discriminate|simpl; lia]).
  apply (step_inj poly); [exact Hl|exact Hs|rewrite repeat_length; exact Hs|].
  unfold zeros in Hz. rewrite Hz, next_bit_zero. cbn [length repeat]. f_equal. rewrite removelast_length.
  destruct (length s) as [|n]; [lia|]. simpl. rewrite Nat.sub_0_r. clear. induction n as [|n IH]; [reflexivity|].
  simpl repeat in *. destruct n; [reflexivity|]. simpl in *. f_equal. exact IH.
Qed.

Lemma nonzero_run poly s n : last poly false = true -> length s = length poly -> ~ zeros s -> ~ zeros (lfsr_state poly s n).
Proof.
  intros Hl Hs Hn. assert (s <> []) as Hne by (intros ->; destruct poly; [discriminate|discriminate Hs]).
  induction n as [|n IH]; [exact Hn|]. rewrite state_S. apply nonzero_step; [exact Hl|rewrite state_length; assumption|exact IH].
Qed.

(** * period *)
Fixpoint vectors (w : nat) : list (list bool) :=
  match w with 0 => [[]] | S v => map (cons false) (vectors v) ++ map (cons true) (vectors v) end.
Lemma vectors_in w s : length s = w -> In s (vectors w).
Proof.
  revert s. induction w as [|w IH]; intros s H; [destruct s; [left; reflexivity|discriminate]|].
  destruct s as [|[] s]; [discriminate| |]; cbn [vectors]; apply in_or_app; [right|left]; apply in_map; apply IH; simpl in H; lia.
Qed.
Lemma vectors_length w : length (vectors w) = 2 ^ w.
Proof. induction w as [|w IH]; [reflexivity|]. cbn [vectors]. rewrite app_length, !map_length, IH. simpl. lia. Qed.

Lemma vectors_zero w : exists r, vectors w = repeat false w :: r.
Proof.
  induction w as [|w [r E]]; [exists []; reflexivity|]. cbn [vectors]. rewrite E. eexists. reflexivity.
Qed.

Lemma state_add poly s a b : lfsr_state poly s (a + b) = lfsr_state poly (lfsr_state poly s a) b.
Proof. unfold lfsr_state. rewrite repeat_app, final_app. reflexivity. Qed.

Lemma back poly s : last poly false = true -> length s = length poly ->
  forall i j, lfsr_state poly s (i + j) = lfsr_state poly s i -> lfsr_state poly s j = s.
Proof.
  intros Hl Hs. assert (s <> []) as Hne by (intros ->; destruct poly; [discriminate|discriminate Hs]).
  induction i as [|i IH]; intros j E; [exact E|]. apply IH. cbn [Nat.add] in E. rewrite !state_S in E.
  apply (step_inj poly) in E; [exact E|exact Hl| |]; rewrite state_length; assumption.
Qed.

Lemma pigeon {A} (f : nat -> A) (l : list A) n : (forall i, i <= n -> In (f i) l) -> length l <= n ->
  (forall x y : A, {x = y} + {x <> y}) -> exists i j, i + j <= n /\ 1 <= j /\ f (i + j) = f i.
Proof.
  intros Hin Hlen dec.
  assert (~ NoDup (map f (seq 0 (S n)))) as Hd.
  { intros Hnd. pose proof (NoDup_incl_length Hnd (l' := l)) as H. rewrite map_length, seq_length in H.
    enough (S n <= length l) by lia. apply H. intros x Hx. apply in_map_iff in Hx. destruct Hx as (i & <- & Hi). apply in_seq in Hi. apply Hin. lia. }
  assert (forall m, ~ NoDup (map f (seq 0 m)) -> exists i k, i < k < m /\ f k = f i) as G.
  { induction m as [|m IH]; intros H; [exfalso; apply H; constructor|].
    rewrite seq_S, map_app in H. cbn [map Nat.add] in H.
    destruct (in_dec dec (f m) (map f (seq 0 m))) as [Hi|Hn].
    - apply in_map_iff in Hi. destruct Hi as (i & E & Hi). apply in_seq in Hi. exists i, m. split; [lia|congruence].
    - destruct IH as (i & k & H1 & H2); [|exists i, k; split; [lia|exact H2]].
      intros Hnd. apply H. apply NoDup_rev in Hnd. rewrite <- (rev_involutive (map f (seq 0 m) ++ [f m])). apply NoDup_rev.
      rewrite rev_app_distr. constructor; [|exact Hnd]. intros Hi. apply in_rev in Hi. contradiction. }
  destruct (G _ Hd) as (i & k & H1 & H2). exists i, (k - i). replace (i + (k - i)) with k by lia. split; [lia|]. split; [lia|exact H2].
Qed.

Lemma period poly s : last poly false = true -> length s = length poly -> ~ zeros s ->
  exists p, 1 <= p < 2 ^ length poly /\ lfsr_state poly s p = s.
Proof.
  intros Hl Hs Hn. assert (s <> []) as Hne by (intros ->; destruct poly; [discriminate|discriminate Hs]).
  destruct (vectors_zero (length poly)) as [r Er]. pose proof (vectors_length (length poly)) as Hv. rewrite Er in Hv. cbn [length] in Hv.
  destruct (pigeon (lfsr_state poly s) r (2 ^ length poly - 1)) as (i & j & H1 & H2 & H3).
  - intros i _. assert (In (lfsr_state poly s i) (vectors (length poly))) as Hi by (apply vectors_in; rewrite state_length; assumption).
    rewrite Er in Hi. destruct Hi as [E|Hi]; [|exact Hi]. exfalso. apply (nonzero_run poly s i Hl Hs Hn).
    unfold zeros. rewrite state_length by exact Hne. rewrite Hs. symmetry. exact E.
  - lia.
  - apply list_eq_dec. apply bool_dec.
  - exists j. split; [pose proof (pow2_pos (length poly)); lia|]. apply (back poly s Hl Hs i j). exact H3.
Qed.

(** * properties *)
Lemma c29 : forall (poly init : list bool),
  last poly false = true -> length init = length poly -> (exists i, nth i init false = true) ->
  (forall n, exists i, nth i (lfsr_state poly init n) false = true) /\
  (exists p, 1 <= p < 2 ^ length poly /\ forall n, lfsr_out poly init (n + p) = lfsr_out poly init n).
Proof.
  intros poly init Hl Hs [i Hi].
  assert (~ zeros init) as Hn.
  { intros Hz. rewrite Hz in Hi. clear - Hi. revert i Hi. generalize (length init). induction n; intros [|i]; try discriminate. apply IHn. }
  split.
  - intros n. pose proof (nonzero_run poly init n Hl Hs Hn) as H. clear - H. induction (lfsr_state poly init n) as [|b l IH]; [exfalso; apply H; reflexivity|].
    destruct b; [exists 0; reflexivity|]. destruct IH as [i E]; [|exists (S i); exact E].
    intros Hz. apply H. unfold zeros in *. cbn [length repeat]. f_equal. exact Hz.
  - destruct (period poly init Hl Hs Hn) as (p & Hp & E). exists p. split; [exact Hp|]. intros n. unfold lfsr_out.
    rewrite Nat.add_comm, state_add, E. reflexivity.
Qed.

Lemma nth_removelast {A} (d : A) l i : S i < length l -> nth i (removelast l) d = nth i l d.
Proof.
  intros H. rewrite (app_removelast_last d (l := l)) at 2 by (destruct l; [simpl in H; lia|discriminate]).
  rewrite app_nth1; [reflexivity|]. rewrite removelast_length. lia.
Qed.

Lemma hist poly s n : s <> [] -> forall i, i <= n -> i < length s -> nth i (lfsr_state poly s n) false = lfsr_out poly s (n - i).
Proof.
  intros Hne. induction n as [|n IH]; intros i Hi Hl.
  - assert (i = 0) as -> by lia. unfold lfsr_out. cbn [lfsr_step snd Nat.sub]. destruct (lfsr_state poly s 0); reflexivity.
  - destruct i as [|i]; [unfold lfsr_out; cbn [lfsr_step snd]; rewrite Nat.sub_0_r; destruct (lfsr_state poly s (S n)); reflexivity|].
    rewrite state_S. cbn [nth Nat.sub]. rewrite nth_removelast by (rewrite state_length; assumption). apply IH; lia.
Qed.

Lemma c29_rec : forall (poly init : list bool) (n : nat),
  poly <> [] -> length init = length poly -> length poly <= n + 1 ->
  lfsr_out poly init (n + 1) = tap_xor poly (lfsr_out poly init) n.
Proof.
  intros poly init n Hp Hs Hn. assert (init <> []) as Hne by (intros ->; destruct poly; [congruence|discriminate Hs]).
  unfold lfsr_out at 1. cbn [lfsr_step snd]. rewrite Nat.add_1_r, state_S. cbn [hd]. unfold next_bit, tap_xor. f_equal.
  pose proof (state_length poly init n Hne) as Hl. pose proof (hist poly init n Hne) as Hh. rewrite Hs in Hl, Hh.
  generalize dependent (lfsr_state poly init n). intros st Hl Hh.
  apply nth_ext with (d := false) (d' := false); [rewrite !map_length, combine_length, seq_length; lia|].
  intros k Hk. rewrite map_length, combine_length in Hk.
  rewrite (nth_indep _ false ((fun p : bool * bool => fst p && snd p) (false, false))) by (rewrite map_length, combine_length; lia).
  rewrite (map_nth (fun p : bool * bool => fst p && snd p)). rewrite combine_nth by lia. cbn [fst snd].
  rewrite (nth_indep (map (fun i => nth i poly false && lfsr_out poly init (n - i)) (seq 0 (length poly))) false ((fun i => nth i poly false && lfsr_out poly init (n - i)) 0)) by (rewrite map_length, seq_length; lia).
  rewrite (map_nth (fun i => nth i poly false && lfsr_out poly init (n - i))). rewrite seq_nth by lia. cbn [Nat.add].
  rewrite Hh by lia. reflexivity.
Qed.
