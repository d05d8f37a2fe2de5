From Verif Require Import Base BaseFacts HsRegModel JoinSplitModel JoinSplitSpec.

(** Lists of bits. *)
Lemma any_true l : any l = true <-> exists k, nth k l false = true.
Proof.
  unfold any. rewrite existsb_exists. split.
  - intros [b [Hb ->]]. apply In_nth with (d := false) in Hb. destruct Hb as [k [_ H]]. exists k. exact H.
  - intros [k H]. exists true. split; [|reflexivity].
    destruct (Nat.lt_ge_cases k (length l)) as [L|L]; [rewrite <- H; apply nth_In; exact L|].
    rewrite nth_overflow in H by exact L. discriminate.
Qed.

Lemma every_true l : every l = true <-> forall k, k < length l -> nth k l false = true.
Proof.
  unfold every. rewrite forallb_forall. split.
  - intros H k Hk. apply H, nth_In, Hk.
  - intros H b Hb. apply In_nth with (d := false) in Hb. destruct Hb as [k [Hk <-]]. apply H, Hk.
Qed.

Lemma nth_map_seq {B} (f : nat -> B) n k d : k < n -> nth k (map f (seq 0 n)) d = f k.
Proof.
  intros H. rewrite nth_indep with (d' := f 0) by (rewrite map_length, seq_length; exact H).
  rewrite map_nth, seq_nth by exact H. reflexivity.
Qed.

Lemma nth_error_map_seq {B} (f : nat -> B) n k : k < n -> nth_error (map f (seq 0 n)) k = Some (f k).
Proof.
  intros H. rewrite nth_error_nth' with (d := f 0) by (rewrite map_length, seq_length; exact H).
  rewrite nth_map_seq by exact H. reflexivity.
Qed.

Lemma nth_error_nth_b (l : list bool) k : nth_error l k = Some true <-> nth k l false = true.
Proof.
  revert k. induction l as [|a l IH]; intros [|k]; simpl; try (split; discriminate || congruence).
  apply IH.
Qed.

Lemma len_onehot n k : length (onehot n k) = n.
Proof. unfold onehot. rewrite map_length, seq_length. reflexivity. Qed.

Lemma nth_onehot n p k : k < n -> nth k (onehot n p) false = (k =? p).
Proof. intros H. exact (nth_map_seq (fun j => j =? p) n k false H). Qed.

Lemma prio_init_onehot n : prio_init n = onehot n 0.
Proof. reflexivity. Qed.

(** rotation *)
Lemma rol1_snoc r x : rol1 (r ++ [x]) = x :: r.
Proof.
  unfold rol1. rewrite last_last, removelast_last. destruct r; reflexivity.
Qed.

Lemma nth_rol1 l k : 0 < length l -> k < length l ->
  nth k (rol1 l) false = match k with 0 => last l false | S k' => nth k' l false end.
Proof.
  intros H0 Hk. destruct (@exists_last _ l) as [r [x ->]]; [destruct l; [simpl in H0; lia|discriminate]|].
  rewrite rol1_snoc, last_last. rewrite app_length in Hk. simpl in Hk.
  destruct k as [|k]; [reflexivity|]. cbn [nth]. rewrite app_nth1 by lia. reflexivity.
Qed.

Lemma len_rol1 l : length (rol1 l) = length l.
Proof.
  destruct l as [|a l]; [reflexivity|].
  destruct (@exists_last _ (a :: l)) as [r [x ->]]; [discriminate|].
  rewrite rol1_snoc, app_length. simpl. lia.
Qed.

Lemma last_nth_b (l : list bool) : last l false = nth (length l - 1) l false.
Proof.
  induction l as [|a l IH]; [reflexivity|]. destruct l as [|b l]; [reflexivity|].
  change (last (a :: b :: l) false) with (last (b :: l) false). rewrite IH.
  simpl. rewrite Nat.sub_0_r. reflexivity.
Qed.

Lemma rol1_onehot n p : p < n -> rol1 (onehot n p) = onehot n ((p + 1) mod n).
Proof.
  intros Hp. apply nth_ext with (d := false) (d' := false).
  - rewrite len_rol1, !len_onehot. reflexivity.
  - rewrite len_rol1, len_onehot. intros k Hk.
    rewrite nth_rol1 by (rewrite len_onehot; lia).
    rewrite (nth_onehot n ((p + 1) mod n)) by exact Hk.
    destruct k as [|k].
    + rewrite last_nth_b, len_onehot, nth_onehot by lia.
      destruct (Nat.eq_dec p (n - 1)) as [->|Hne].
      * replace (n - 1 + 1) with n by lia. rewrite Nat.mod_same by lia. rewrite Nat.eqb_refl. reflexivity.
      * rewrite (Nat.mod_small (p + 1)) by lia.
        destruct (Nat.eqb_spec (n - 1) p), (Nat.eqb_spec 0 (p + 1)); try lia; reflexivity.
    + rewrite nth_onehot by lia.
      destruct (Nat.eq_dec p (n - 1)) as [->|Hne].
      * replace (n - 1 + 1) with n by lia. rewrite Nat.mod_same by lia.
        destruct (Nat.eqb_spec k (n - 1)); [lia|]. reflexivity.
      * rewrite (Nat.mod_small (p + 1)) by lia.
        destruct (Nat.eqb_spec k p), (Nat.eqb_spec (S k) (p + 1)); try lia; reflexivity.
Qed.

Lemma nth_skipn_b {B} n (l : list B) k d : nth k (skipn n l) d = nth (n + k) l d.
Proof.
  revert l. induction n as [|n IH]; intros l; [reflexivity|].
  destruct l as [|a l]; simpl; [destruct k; reflexivity|apply IH].
Qed.

Lemma nth_firstn_b {B} n (l : list B) k d : nth k (firstn n l) d = if k <? n then nth k l d else d.
Proof.
  revert n k. induction l as [|a l IH]; intros n k.
  - rewrite firstn_nil. destruct k, (_ <? n); reflexivity.
  - destruct n as [|n]; [destruct k; reflexivity|]. destruct k as [|k]; [reflexivity|].
    cbn [firstn nth]. rewrite IH. reflexivity.
Qed.

Lemma any_app a b : any (a ++ b) = any a || any b.
Proof. apply existsb_app. Qed.

Lemma any_firstn vs k : any (firstn k vs) = true <-> exists j, j < k /\ nth j vs false = true.
Proof.
  rewrite any_true. split.
  - intros [j H]. rewrite nth_firstn_b in H. destruct (Nat.ltb_spec j k); [eauto|discriminate].
  - intros [j [H1 H2]]. exists j. rewrite nth_firstn_b. destruct (Nat.ltb_spec j k); [exact H2|lia].
Qed.

(** [k] is the selected one when [p] has the priority. *)
Definition wins (p : nat) (vs : list bool) (k : nat) : Prop :=
  nth k vs false = true /\
  (k = p \/ (nth p vs false = false /\ forall j, j < k -> nth j vs false = false)).

Lemma overdrive n p vs k : p < n -> length vs = n ->
  any (map (fun pv => fst pv && snd pv) (skipn (S k) (combine (onehot n p) vs))) = true <->
  k < p /\ nth p vs false = true.
Proof.
  intros Hp Hn.
  set (f := fun pv : bool * bool => fst pv && snd pv).
  assert (forall j, nth j (map f (skipn (S k) (combine (onehot n p) vs))) false =
                    (nth (S k + j) (onehot n p) false && nth (S k + j) vs false)) as E.
  { intros j. change false with (f (false, false)) at 1. rewrite map_nth, nth_skipn_b.
    rewrite combine_nth by (rewrite len_onehot; lia). reflexivity. }
  rewrite any_true. split.
  - intros [j H]. rewrite E in H. apply andb_prop in H. destruct H as [H1 H2].
    destruct (Nat.lt_ge_cases (S k + j) n) as [L|L].
    + rewrite nth_onehot in H1 by exact L. apply Nat.eqb_eq in H1. subst p. split; [lia|exact H2].
    + rewrite nth_overflow in H1 by (rewrite len_onehot; lia). discriminate.
  - intros [H1 H2]. exists (p - S k). rewrite E. replace (S k + (p - S k)) with p by lia.
    rewrite H2, nth_onehot, Nat.eqb_refl by lia. reflexivity.
Qed.

Lemma priority_ack_spec n p vs k : p < n -> length vs = n -> k < n ->
  priority_ack (onehot n p) vs k = true <->
  (k = p \/ ((forall j, j < k -> nth j vs false = false) /\ ~ (k < p /\ nth p vs false = true))).
Proof.
  intros Hp Hn Hk. unfold priority_ack. rewrite nth_onehot by exact Hk.
  rewrite orb_true_iff, Nat.eqb_eq, negb_true_iff, any_app, orb_false_iff.
  rewrite <- !not_true_iff_false, (overdrive n p vs k Hp Hn), any_firstn.
  split.
  - intros [[H1 H2]|H]; [right|left; exact H]. split; [|exact H1].
    intros j Hj. destruct (nth j vs false) eqn:E; [|reflexivity]. exfalso. apply H2. eauto.
  - intros [H|[H1 H2]]; [right; exact H|left]. split; [exact H2|].
    intros [j [Hj E]]. rewrite (H1 j Hj) in E. discriminate.
Qed.

Lemma wins_iff n p vs k : p < n -> length vs = n -> k < n ->
  (priority_ack (onehot n p) vs k && nth k vs false = true <-> wins p vs k).
Proof.
  intros Hp Hn Hk. rewrite andb_true_iff, (priority_ack_spec n p vs k Hp Hn Hk). unfold wins. split.
  - intros [[->|[H1 H2]] Hv]; (split; [exact Hv|]); [left; reflexivity|].
    destruct (Nat.eq_dec k p) as [E|E]; [left; exact E|right]. split; [|exact H1].
    destruct (Nat.lt_ge_cases k p) as [L|L].
    + destruct (nth p vs false); [exfalso; apply H2; auto|reflexivity].
    + apply H1. lia.
  - intros [Hv [->|[H1 H2]]]; (split; [|exact Hv]); [left; reflexivity|].
    right. split; [exact H2|]. intros [_ H]. congruence.
Qed.

Lemma wins_lt p vs k : wins p vs k -> k < length vs.
Proof.
  intros [H _]. destruct (Nat.lt_ge_cases k (length vs)); [assumption|].
  rewrite nth_overflow in H by assumption. discriminate.
Qed.

Lemma wins_unique p vs k j : wins p vs k -> wins p vs j -> k = j.
Proof.
  intros [Hk [->|[Hp Hl]]] [Hj [->|[Hp' Hl']]]; try congruence.
  destruct (Nat.lt_trichotomy k j) as [L|[L|L]]; [|exact L|].
  - rewrite (Hl' k L) in Hk. discriminate.
  - rewrite (Hl j L) in Hj. discriminate.
Qed.

Lemma least_true (vs : list bool) k : nth k vs false = true ->
  exists m, nth m vs false = true /\ forall j, j < m -> nth j vs false = false.
Proof.
  induction k as [k IH] using lt_wf_ind. intros H.
  destruct (any (firstn k vs)) eqn:E.
  - apply any_firstn in E. destruct E as [j [Hj E]]. apply (IH j Hj E).
  - exists k. split; [exact H|]. intros j Hj. destruct (nth j vs false) eqn:E'; [|reflexivity].
    assert (any (firstn k vs) = true) by (apply any_firstn; eauto). congruence.
Qed.

Lemma wins_exists p vs : any vs = true -> exists k, wins p vs k.
Proof.
  intros H. apply any_true in H. destruct H as [k H].
  destruct (nth p vs false) eqn:E.
  - exists p. split; [exact E|left; reflexivity].
  - destruct (least_true vs k H) as [m [Hm Hl]]. exists m. split; [exact Hm|right; auto].
Qed.

(** switch *)
Lemma switch_first {A} (cs : list (bool * A)) x k a :
  nth_error cs k = Some (true, a) ->
  (forall j b c, j < k -> nth_error cs j = Some (b, c) -> b = false) ->
  switch cs x = a.
Proof.
  revert k. induction cs as [|[b c] cs IH]; intros k Hk Hl; [destruct k; discriminate|].
  destruct k as [|k]; simpl in Hk.
  - injection Hk as -> ->. reflexivity.
  - simpl. assert (b = false) as -> by (apply (Hl 0 b c); [lia|reflexivity]).
    apply (IH k Hk). intros j b' c' Hj E. apply (Hl (S j) b' c'); [lia|exact E].
Qed.

Section Join.
  Context {A : Type}.

  Lemma nth_vlds (i : join_in A) k : nth k (vlds i) false = true <-> exists d, nth_error (j_in i) k = Some (true, d).
  Proof.
    unfold vlds. rewrite <- nth_error_nth_b, nth_error_map. split.
    - destruct (nth_error (j_in i) k) as [[b d]|]; [|discriminate]. simpl. intros [= ->]. eauto.
    - intros [d ->]. reflexivity.
  Qed.

  Lemma len_vlds (i : join_in A) : length (vlds i) = nin i.
  Proof. unfold vlds, nin. apply map_length. Qed.

  Lemma sel_map n p vs : p < n -> length vs = n ->
    is_selected (onehot n p) vs = map (priority_ack (onehot n p) vs) (seq 0 n).
  Proof.
    intros Hp Hn. unfold is_selected. rewrite Hn. destruct (Nat.eqb_spec n 1) as [->|E]; [|reflexivity].
    assert (p = 0) as -> by lia. simpl. unfold priority_ack. simpl. rewrite orb_true_r. reflexivity.
  Qed.

  Section Cycle.
    Variables (x : A) (n p : nat) (i : join_in A).
    Hypotheses (Hp : p < n) (Hn : nin i = n).
    Let o := snd (join_fair x (onehot n p) i).

    Lemma jf_rds : j_rds o = map (fun k => priority_ack (onehot n p) (vlds i) k && j_rd i) (seq 0 n).
    Proof.
      unfold o, join_fair. cbn [snd j_rds].
      rewrite (sel_map n p _ Hp) by (rewrite len_vlds; exact Hn). rewrite map_map. reflexivity.
    Qed.

    Lemma jf_moves k : in_moves i o k <-> wins p (vlds i) k /\ j_rd i = true.
    Proof.
      assert (length (vlds i) = n) as Hl by (rewrite len_vlds; exact Hn).
      unfold in_moves. rewrite jf_rds. split.
      - intros [d [H1 H2]].
        assert (k < n) as Hk.
        { rewrite <- Hn. apply nth_error_Some. congruence. }
        rewrite nth_error_map_seq in H2 by exact Hk. injection H2 as H2. apply andb_prop in H2.
        destruct H2 as [H2 H3]. split; [|exact H3].
        apply (wins_iff n p (vlds i) k Hp Hl Hk). rewrite H2. apply nth_vlds. eauto.
      - intros [H1 H2]. pose proof (wins_lt _ _ _ H1) as Hk. rewrite Hl in Hk.
        apply (wins_iff n p (vlds i) k Hp Hl Hk) in H1. apply andb_prop in H1. destruct H1 as [H1 H3].
        apply nth_vlds in H3. destruct H3 as [d H3]. exists d. split; [exact H3|].
        rewrite nth_error_map_seq, H1, H2 by exact Hk. reflexivity.
    Qed.

    Lemma jf_data k d : wins p (vlds i) k -> nth_error (j_in i) k = Some (true, d) -> j_data o = d.
    Proof.
      assert (length (vlds i) = n) as Hl by (rewrite len_vlds; exact Hn).
      intros Hw Hd. unfold o, join_fair. cbn [snd j_data].
      rewrite (sel_map n p _ Hp Hl).
      assert (forall j b e, nth_error (map (fun sd : bool * (bool * A) => (fst (snd sd) && fst sd, snd (snd sd)))
         (combine (map (priority_ack (onehot n p) (vlds i)) (seq 0 n)) (j_in i))) j = Some (b, e) ->
         exists v, nth_error (j_in i) j = Some (v, e) /\ b = v && priority_ack (onehot n p) (vlds i) j) as Hc.
      { intros j b e H. rewrite nth_error_map in H.
        destruct (nth_error (combine _ (j_in i)) j) as [[s [v e']]|] eqn:E; [|discriminate].
        cbn in H. injection H as <- <-.
        assert (j < n) as Hj.
        { assert (j < length (combine (map (priority_ack (onehot n p) (vlds i)) (seq 0 n)) (j_in i)))
            by (apply nth_error_Some; congruence).
          rewrite combine_length, map_length, seq_length in H. lia. }
        apply nth_error_nth with (d := (false, (false, d))) in E.
        rewrite combine_nth in E by (rewrite map_length, seq_length; unfold nin in Hn; congruence).
        injection E as E1 E2. rewrite nth_map_seq in E1 by exact Hj. exists v. subst s. split; [|reflexivity].
        rewrite (nth_error_nth' _ (false, d)) by (unfold nin in Hn; lia). congruence. }
      pose proof (wins_lt _ _ _ Hw) as Hk. rewrite Hl in Hk.
      apply switch_first with (k := k).
      - set (L := map _ (combine _ _)) in *.
        assert (k < length L) as HkL.
        { unfold L. rewrite map_length, combine_length, map_length, seq_length. unfold nin in Hn. lia. }
        destruct (nth_error L k) as [[b e]|] eqn:E; [|apply nth_error_None in E; lia].
        destruct (Hc k b e E) as [v [E1 E2]]. rewrite Hd in E1. injection E1 as <- <-.
        f_equal. f_equal. rewrite E2.
        apply (wins_iff n p (vlds i) k Hp Hl Hk) in Hw. apply andb_prop in Hw. destruct Hw as [-> _]. reflexivity.
      - intros j b c Hj E. destruct (Hc j b c E) as [v [E1 E2]]. subst b.
        destruct v; [|reflexivity]. simpl. destruct (priority_ack (onehot n p) (vlds i) j) eqn:E3; [|reflexivity].
        exfalso. assert (j = k); [|lia]. apply (wins_unique p (vlds i)); [|exact Hw].
        apply (wins_iff n p (vlds i) j Hp Hl); [lia|]. rewrite E3. apply nth_vlds. eauto.
    Qed.

    Lemma jf_out : j_vld o = true <-> exists k, wins p (vlds i) k.
    Proof.
      unfold o, join_fair. cbn [snd j_vld]. split; [apply wins_exists|].
      intros [k [H _]]. apply any_true. eauto.
    Qed.

    Lemma jf_sel k : wins p (vlds i) k -> j_sel o = onehot n k.
    Proof.
      assert (length (vlds i) = n) as Hl by (rewrite len_vlds; exact Hn).
      intros Hw. unfold o, join_fair. cbn [snd j_sel]. rewrite Hn.
      pose proof (wins_lt _ _ _ Hw) as Hk. rewrite Hl in Hk.
      destruct (Nat.eqb_spec n 1) as [E|E].
      - subst n. assert (k = 0) as -> by lia. rewrite E. reflexivity.
      - rewrite (sel_map n p _ Hp Hl).
        apply nth_ext with (d := false) (d' := false).
        + rewrite map_length, combine_length, map_length, seq_length, len_onehot. lia.
        + intros j Hj.
          assert (j < n) as Hj'.
          { rewrite map_length, combine_length, map_length, seq_length in Hj. lia. }
          rewrite nth_onehot by exact Hj'.
          change false with ((fun sv : bool * bool => fst sv && snd sv) (false, false)) at 1.
          rewrite map_nth, combine_nth by (rewrite map_length, seq_length; congruence).
          cbn [fst snd]. rewrite nth_map_seq by exact Hj'.
          apply eq_iff_eq_true. rewrite (wins_iff n p (vlds i) j Hp Hl Hj'), Nat.eqb_eq. split.
          * intros H. apply (wins_unique p (vlds i)); assumption.
          * intros ->. exact Hw.
    Qed.
  End Cycle.

  (** The priority register after any history. *)
  Lemma jf_prio x n (is : list (join_in A)) p :
    p < n -> final (join_fair x) (onehot n p) is = onehot n ((p + length is) mod n).
  Proof.
    revert p. induction is as [|i is IH]; intros p Hp.
    - simpl. rewrite Nat.add_0_r, Nat.mod_small by exact Hp. reflexivity.
    - rewrite final_cons. cbn [fst join_fair]. rewrite rol1_onehot by exact Hp.
      rewrite IH by (apply Nat.mod_upper_bound; lia). f_equal. cbn [length].
      rewrite Nat.add_mod_idemp_l by lia. f_equal. lia.
  Qed.

  Lemma jf_reach x n (is : list (join_in A)) :
    0 < n -> exists p, p < n /\ final (join_fair x) (prio_init n) is = onehot n p.
  Proof.
    intros H. exists (length is mod n). split; [apply Nat.mod_upper_bound; lia|].
    rewrite prio_init_onehot, jf_prio by exact H. reflexivity.
  Qed.

  Lemma c10 x n (is : list (join_in A)) (i : join_in A) :
    0 < n -> nin i = n ->
    let o := snd (join_fair x (final (join_fair x) (prio_init n) is) i) in
    (forall k j, in_moves i o k -> in_moves i o j -> k = j) /\
    (forall k d, in_moves i o k -> in_word i k d -> out_moves i o /\ j_data o = d /\
        j_sel o = onehot n k /\ j_sel_vld o = true) /\
    (out_moves i o -> exists k, in_moves i o k) /\
    (j_vld o = true <-> exists k d, in_word i k d).
  Proof.
    intros H0 Hn. destruct (jf_reach x n is H0) as [p [Hp ->]]. intros o.
    repeat split.
    - intros k j Hk Hj. apply (jf_moves x n p i Hp Hn) in Hk, Hj.
      apply (wins_unique p (vlds i)); tauto.
    - apply (jf_moves x n p i Hp Hn) in H. apply (jf_out x n p i). exists k. tauto.
    - apply (jf_moves x n p i Hp Hn) in H. tauto.
    - apply (jf_moves x n p i Hp Hn) in H. apply (jf_data x n p i Hp Hn k d); [tauto|assumption].
    - apply (jf_moves x n p i Hp Hn) in H. apply (jf_sel x n p i Hp Hn k); tauto.
    - apply (jf_moves x n p i Hp Hn) in H. destruct H as [[H _] Hr]. cbn. rewrite Hr, andb_true_r.
      apply any_true. eauto.
    - intros [H1 H2]. apply (jf_out x n p i) in H1. destruct H1 as [k Hk].
      exists k. apply (jf_moves x n p i Hp Hn). auto.
    - intros H. apply (jf_out x n p i) in H. destruct H as [k [Hk _]]. exists k.
      apply nth_vlds in Hk. exact Hk.
    - intros [k Hk]. apply any_true. exists k. apply nth_vlds. exact Hk.
  Qed.

  (** Fairness *)
  Lemma c10_fair x n (is js : list (join_in A)) k :
    k < n -> length js = n ->
    (forall j, In j js -> nin j = n /\ j_rd j = true /\ exists d, in_word j k d) ->
    exists m j o, nth_error js m = Some j /\
      nth_error (outs (join_fair x) (final (join_fair x) (prio_init n) is) js) m = Some o /\
      in_moves j o k.
  Proof.
    intros Hk Hlen Hj. destruct (jf_reach x n is ltac:(lia)) as [p [Hp ->]].
    set (m := (k + n - p) mod n).
    assert (m < n) as Hm by (apply Nat.mod_upper_bound; lia).
    assert ((p + m) mod n = k) as Epm.
    { unfold m. rewrite Nat.add_mod_idemp_r by lia. replace (p + (k + n - p)) with (k + 1 * n) by lia.
      rewrite Nat.mod_add by lia. apply Nat.mod_small, Hk. }
    destruct (nth_error js m) as [j|] eqn:Ej; [|apply nth_error_None in Ej; lia].
    pose proof (nth_error_split js m Ej) as [l1 [l2 [E El]]].
    exists m, j, (snd (join_fair x (onehot n k) j)). split; [exact Ej|]. split.
    - rewrite E, outs_app, outs_cons.
      assert (length (outs (join_fair x) (onehot n p) l1) = m) as Eo by (rewrite outs_length; exact El).
      rewrite nth_error_app2 by lia. rewrite Eo, Nat.sub_diag. cbn [nth_error].
      rewrite jf_prio, El, Epm by exact Hp. reflexivity.
    - destruct (Hj j) as [H1 [H2 [d Hd]]]; [eapply nth_error_In, Ej|].
      apply (jf_moves x n k j Hk H1). split; [|exact H2]. split; [|left; reflexivity].
      apply nth_vlds. exists d. exact Hd.
  Qed.

  (** HsJoinPrioritized *)
  Lemma jp_rds x (i : join_in A) k :
    nth_error (j_rds (join_prio x i)) k = Some true <->
    k < nin i /\ j_rd i = true /\ forall j, j < k -> nth j (vlds i) false = false.
  Proof.
    unfold join_prio. cbn [j_rds]. split.
    - intros H. assert (k < nin i) as Hk.
      { assert (k < length (map (fun k => j_rd i && every (map negb (firstn k (vlds i)))) (seq 0 (nin i))))
          by (apply nth_error_Some; congruence).
        rewrite map_length, seq_length in H0. exact H0. }
      rewrite nth_error_map_seq in H by exact Hk. injection H as H. apply andb_prop in H.
      destruct H as [H1 H2]. split; [exact Hk|]. split; [exact H1|]. intros j Hj.
      rewrite every_true in H2.
      assert (j < length (map negb (firstn k (vlds i)))) as Hl.
      { rewrite map_length, firstn_length, len_vlds. lia. }
      specialize (H2 j Hl). rewrite nth_indep with (d' := negb true) in H2 by exact Hl.
      rewrite map_nth, nth_firstn_b in H2. destruct (Nat.ltb_spec j k); [|lia].
      rewrite nth_indep with (d' := true) by (rewrite len_vlds; lia).
      destruct (nth j (vlds i) true); [discriminate|reflexivity].
    - intros [Hk [Hr H]]. rewrite nth_error_map_seq by exact Hk. rewrite Hr. f_equal. simpl.
      apply every_true. rewrite map_length. intros j Hj.
      rewrite nth_indep with (d' := negb false) by (rewrite map_length; exact Hj).
      rewrite map_nth, nth_firstn_b. rewrite firstn_length in Hj.
      destruct (Nat.ltb_spec j k); [|reflexivity]. rewrite H by assumption. reflexivity.
  Qed.

  Lemma c12 x (i : join_in A) :
    let o := join_prio x i in
    (forall k, in_moves i o k <->
        j_rd i = true /\ (exists d, in_word i k d) /\ forall j d, j < k -> ~ in_word i j d) /\
    (forall k d, in_moves i o k -> in_word i k d -> out_moves i o /\ j_data o = d) /\
    (out_moves i o -> exists k, in_moves i o k).
  Proof.
    intros o.
    assert (forall k, in_moves i o k <->
        j_rd i = true /\ (exists d, in_word i k d) /\ forall j d, j < k -> ~ in_word i j d) as Hm.
    { intros k. unfold in_moves. split.
      - intros [d [H1 H2]]. apply jp_rds in H2. destruct H2 as [H2 [H3 H4]].
        split; [exact H3|]. split; [exists d; exact H1|]. intros j e Hj He.
        specialize (H4 j Hj). assert (nth j (vlds i) false = true) by (apply nth_vlds; eauto). congruence.
      - intros [H1 [[d H2] H3]]. exists d. split; [exact H2|]. apply jp_rds.
        split; [unfold nin; apply nth_error_Some; unfold in_word in H2; congruence|]. split; [exact H1|].
        intros j Hj. destruct (nth j (vlds i) false) eqn:E; [|reflexivity].
        apply nth_vlds in E. destruct E as [e E]. exfalso. apply (H3 j e Hj E). }
    split; [exact Hm|]. split.
    - intros k d Hk Hd. apply Hm in Hk. destruct Hk as [H1 [_ H3]]. repeat split.
      + apply any_true. exists k. apply nth_vlds. eauto.
      + exact H1.
      + unfold o, join_prio. cbn [j_data]. apply switch_first with (k := k); [exact Hd|].
        intros j b c Hj E. destruct b; [|reflexivity]. exfalso. apply (H3 j c Hj E).
    - intros [H1 H2]. unfold o, join_prio in H1. cbn [j_vld] in H1.
      apply any_true in H1. destruct H1 as [k0 H1]. destruct (least_true _ _ H1) as [k [Hk Hl]].
      exists k. apply Hm. split; [exact H2|]. split; [apply nth_vlds in Hk; exact Hk|].
      intros j d Hj Hd. assert (nth j (vlds i) false = true) by (apply nth_vlds; eauto).
      rewrite Hl in H by exact Hj. discriminate.
  Qed.
End Join.

(** Splits *)
Section Split.
  Lemma c13 (i : split_in) :
    let o := split_copy i in
    (din_moves i o -> forall k, k < nout i -> out_takes i o k) /\
    (forall k, out_takes i o k -> din_moves i o).
  Proof.
    intros o. unfold din_moves, out_takes, o, split_copy. cbn [s_rd s_vlds]. split.
    - intros [Hv Hr] k Hk. rewrite every_true in Hr. split.
      + apply nth_error_nth_b, Hr, Hk.
      + rewrite nth_error_map_seq by exact Hk. f_equal. unfold every. cbn [forallb]. rewrite Hv, andb_true_l.
        fold (every (firstn k (s_rds i) ++ skipn (S k) (s_rds i))). unfold every. rewrite forallb_app.
        apply andb_true_intro. split; apply forallb_forall; intros b Hb.
        * apply In_nth with (d := false) in Hb. destruct Hb as [j [Hj <-]]. rewrite firstn_length in Hj.
          rewrite nth_firstn_b. destruct (Nat.ltb_spec j k); [|lia]. apply Hr. lia.
        * apply In_nth with (d := false) in Hb. destruct Hb as [j [Hj <-]]. rewrite skipn_length in Hj.
          rewrite nth_skipn_b. apply Hr. unfold nout in *. lia.
    - intros k [H1 H2].
      assert (k < nout i) as Hk by (unfold nout; apply nth_error_Some; congruence).
      rewrite nth_error_map_seq in H2 by exact Hk. injection H2 as H2.
      unfold every in H2. cbn [forallb] in H2. apply andb_prop in H2. destruct H2 as [H2 H3].
      rewrite forallb_app in H3. apply andb_prop in H3. destruct H3 as [H3 H4].
      rewrite forallb_forall in H3, H4. split; [exact H2|]. apply every_true. intros j Hj.
      destruct (Nat.lt_trichotomy j k) as [L|[->|L]].
      + apply H3. replace (nth j (s_rds i) false) with (nth j (firstn k (s_rds i)) false)
          by (rewrite nth_firstn_b; destruct (Nat.ltb_spec j k); [reflexivity|lia]).
        apply nth_In. rewrite firstn_length. lia.
      + apply nth_error_nth_b, H1.
      + apply H4. replace (nth j (s_rds i) false) with (nth (j - S k) (skipn (S k) (s_rds i)) false)
          by (rewrite nth_skipn_b; f_equal; lia).
        apply nth_In. change (j - S k < length (skipn (S k) (s_rds i))). rewrite skipn_length. lia.
  Qed.

  (** HsSplitFair *)
  Lemma sf_takes exp n p i k : p < n -> nout i = n ->
    (out_takes i (snd (split_fair exp (onehot n p) i)) k <->
     wins p (s_rds i) k /\ s_vld i = true /\ sel_open exp i).
  Proof.
    intros Hp Hn. unfold out_takes, split_fair, sel_open. cbn [snd s_vlds]. rewrite Hn, map_map.
    rewrite nth_error_nth_b. split.
    - intros [H1 H2].
      assert (k < n) as Hk.
      { rewrite <- Hn. destruct (Nat.lt_ge_cases k (nout i)); [assumption|].
        rewrite nth_overflow in H1 by assumption. discriminate. }
      rewrite nth_error_map_seq in H2 by exact Hk. injection H2 as H2.
      apply andb_prop in H2. destruct H2 as [H2 H4]. apply andb_prop in H2. destruct H2 as [H2 H3].
      split; [|split; [exact H3|intros ->; exact H4]].
      apply (wins_iff n p (s_rds i) k Hp Hn Hk). rewrite H2, H1. reflexivity.
    - intros [H1 [H2 H3]]. pose proof (wins_lt _ _ _ H1) as Hk. change (length (s_rds i)) with (nout i) in Hk.
      rewrite Hn in Hk.
      apply (wins_iff n p (s_rds i) k Hp Hn Hk) in H1. apply andb_prop in H1. destruct H1 as [H1 H4].
      split; [exact H4|]. rewrite nth_error_map_seq by exact Hk. rewrite H1, H2.
      destruct exp; [rewrite H3 by reflexivity|]; reflexivity.
  Qed.

  Lemma sf_din exp n p i : nout i = n ->
    (din_moves i (snd (split_fair exp (onehot n p) i)) <->
     s_vld i = true /\ (exists k, nth_error (s_rds i) k = Some true) /\ sel_open exp i).
  Proof.
    intros Hn. unfold din_moves, split_fair, sel_open. cbn [snd s_rd]. split.
    - intros [H1 H2]. apply andb_prop in H2. destruct H2 as [H2 H3]. apply any_true in H2.
      destruct H2 as [k H2]. split; [exact H1|]. split; [exists k; apply nth_error_nth_b, H2|].
      intros ->. exact H3.
    - intros [H1 [[k H2] H3]]. split; [exact H1|]. apply andb_true_intro. split.
      + apply any_true. exists k. apply nth_error_nth_b, H2.
      + destruct exp; auto.
  Qed.

  Lemma sf_prio exp n is p :
    p < n -> final (split_fair exp) (onehot n p) is = onehot n ((p + length is) mod n).
  Proof.
    revert p. induction is as [|i is IH]; intros p Hp.
    - simpl. rewrite Nat.add_0_r, Nat.mod_small by exact Hp. reflexivity.
    - rewrite final_cons. cbn [fst split_fair]. rewrite rol1_onehot by exact Hp.
      rewrite IH by (apply Nat.mod_upper_bound; lia). f_equal. cbn [length].
      rewrite Nat.add_mod_idemp_l by lia. f_equal. lia.
  Qed.

  Lemma sf_reach exp n is :
    0 < n -> exists p, p < n /\ final (split_fair exp) (prio_init n) is = onehot n p.
  Proof.
    intros H. exists (length is mod n). split; [apply Nat.mod_upper_bound; lia|].
    rewrite prio_init_onehot, sf_prio by exact H. reflexivity.
  Qed.

  Lemma c14 exp n is i :
    0 < n -> nout i = n ->
    let o := snd (split_fair exp (final (split_fair exp) (prio_init n) is) i) in
    (din_moves i o <-> s_vld i = true /\ (exists k, nth_error (s_rds i) k = Some true) /\ sel_open exp i) /\
    (din_moves i o <-> exists k, out_takes i o k) /\
    (forall k j, out_takes i o k -> out_takes i o j -> k = j).
  Proof.
    intros H0 Hn. destruct (sf_reach exp n is H0) as [p [Hp ->]]. intros o.
    split; [apply (sf_din exp n p i Hn)|]. split.
    - unfold o. rewrite (sf_din exp n p i Hn). split.
      + intros [H1 [[k H2] H3]]. destruct (wins_exists p (s_rds i)) as [j Hj].
        { apply any_true. exists k. apply nth_error_nth_b, H2. }
        exists j. apply (sf_takes exp n p i j Hp Hn). auto.
      + intros [k H]. apply (sf_takes exp n p i k Hp Hn) in H. destruct H as [[H1 _] [H2 H3]].
        split; [exact H2|]. split; [exists k; apply nth_error_nth_b, H1|exact H3].
    - intros k j H1 H2. apply (sf_takes exp n p i _ Hp Hn) in H1, H2.
      apply (wins_unique p (s_rds i)); tauto.
  Qed.

  Lemma c14_fair exp n is js k :
    k < n -> length js = n ->
    (forall j, In j js -> nout j = n /\ s_vld j = true /\ sel_open exp j /\ nth_error (s_rds j) k = Some true) ->
    exists m j o, nth_error js m = Some j /\
      nth_error (outs (split_fair exp) (final (split_fair exp) (prio_init n) is) js) m = Some o /\
      out_takes j o k.
  Proof.
    intros Hk Hlen Hj. destruct (sf_reach exp n is ltac:(lia)) as [p [Hp ->]].
    set (m := (k + n - p) mod n).
    assert (m < n) as Hm by (apply Nat.mod_upper_bound; lia).
    assert ((p + m) mod n = k) as Epm.
    { unfold m. rewrite Nat.add_mod_idemp_r by lia. replace (p + (k + n - p)) with (k + 1 * n) by lia.
      rewrite Nat.mod_add by lia. apply Nat.mod_small, Hk. }
    destruct (nth_error js m) as [j|] eqn:Ej; [|apply nth_error_None in Ej; lia].
    pose proof (nth_error_split js m Ej) as [l1 [l2 [E El]]].
    exists m, j, (snd (split_fair exp (onehot n k) j)). split; [exact Ej|]. split.
    - rewrite E, outs_app, outs_cons.
      assert (length (outs (split_fair exp) (onehot n p) l1) = m) as Eo by (rewrite outs_length; exact El).
      rewrite nth_error_app2 by lia. rewrite Eo, Nat.sub_diag. cbn [nth_error].
      rewrite sf_prio, El, Epm by exact Hp. reflexivity.
    - destruct (Hj j) as [H1 [H2 [H3 H4]]]; [eapply nth_error_In, Ej|].
      apply (sf_takes exp n k j k Hk H1). split; [|auto]. split; [|left; reflexivity].
      apply nth_error_nth_b, H4.
  Qed.

  (** selectedOneHot of HsSplitFair: correct when the output with the priority is ready. *)
  Lemma sf_sel_data n p i : p < n -> nout i = n -> s_vld i = true ->
    nth_error (s_rds i) p = Some true -> s_sel (snd (split_fair true (onehot n p) i)) = onehot n p.
  Proof.
    intros Hp Hn Hv Hr. apply nth_error_nth_b in Hr. unfold split_fair. cbn [snd s_sel]. rewrite Hn, map_map, Hv.
    apply map_ext_in. intros k Hk. apply in_seq in Hk. rewrite andb_true_r.
    apply eq_iff_eq_true. rewrite (priority_ack_spec n p (s_rds i) k Hp Hn) by lia. rewrite Nat.eqb_eq. split.
    - intros [H|[H1 H2]]; [exact H|]. destruct (Nat.lt_trichotomy k p) as [L|[L|L]]; [|exact L|].
      + exfalso. apply H2. auto.
      + rewrite (H1 p L) in Hr. discriminate.
    - auto.
  Qed.

  Lemma c15 n is i :
    0 < n -> nout i = n -> s_vld i = true ->
    nth_error (s_rds i) (length is mod n) = Some true ->
    let o := snd (split_fair true (final (split_fair true) (prio_init n) is) i) in
    exists k, s_sel o = onehot n k /\ (s_sel_rd i = true -> out_takes i o k).
  Proof.
    intros H0 Hn Hv Hr o. exists (length is mod n).
    assert (length is mod n < n) as Hp by (apply Nat.mod_upper_bound; lia).
    assert (final (split_fair true) (prio_init n) is = onehot n (length is mod n)) as E
      by (rewrite prio_init_onehot, sf_prio by exact H0; reflexivity).
    unfold o. rewrite E. split; [apply sf_sel_data; assumption|].
    intros Hs. apply (sf_takes true n _ i _ Hp Hn). split; [|split; [exact Hv|intros _; exact Hs]].
    split; [apply nth_error_nth_b, Hr|left; reflexivity].
  Qed.

  (** HsSplitPrioritized *)
  Lemma c16_prio (i : split_in) :
    let o := split_prio i in
    (forall k, out_takes i o k <->
       s_vld i = true /\ nth_error (s_rds i) k = Some true /\
       forall j, j < k -> nth_error (s_rds i) j = Some false) /\
    (din_moves i o <-> exists k, out_takes i o k).
  Proof.
    intros o.
    assert (forall k, out_takes i o k <->
       s_vld i = true /\ nth_error (s_rds i) k = Some true /\
       forall j, j < k -> nth_error (s_rds i) j = Some false) as Ht.
    { intros k. unfold out_takes, o, split_prio. cbn [s_vlds]. split.
      - intros [H1 H2]. assert (k < nout i) as Hk by (unfold nout; apply nth_error_Some; congruence).
        rewrite nth_error_map_seq in H2 by exact Hk. injection H2 as H2. apply andb_prop in H2.
        destruct H2 as [H2 H3]. split; [exact H2|]. split; [exact H1|]. intros j Hj.
        assert (nth_error (s_rds i) j <> None) as Hjn by (apply nth_error_Some; unfold nout in Hk; lia).
        destruct (nth_error (s_rds i) j) as [[]|] eqn:E; [|reflexivity|congruence].
        exfalso. unfold every in H3. rewrite forallb_forall in H3.
        assert (negb true = true) as Hf; [|discriminate Hf]. apply H3.
        apply in_map. apply nth_error_nth_b in E.
        replace true with (nth j (firstn k (s_rds i)) false)
          by (rewrite nth_firstn_b; destruct (Nat.ltb_spec j k); [exact E|lia]).
        apply nth_In. rewrite firstn_length. unfold nout in Hk. lia.
      - intros [H1 [H2 H3]]. split; [exact H2|].
        assert (k < nout i) as Hk by (unfold nout; apply nth_error_Some; congruence).
        rewrite nth_error_map_seq by exact Hk. f_equal. rewrite H1. simpl.
        unfold every. apply forallb_forall. intros b Hb. apply in_map_iff in Hb. destruct Hb as [c [<- Hc]].
        apply In_nth with (d := false) in Hc. destruct Hc as [j [Hj <-]]. rewrite firstn_length in Hj.
        rewrite nth_firstn_b. destruct (Nat.ltb_spec j k) as [L|L]; [|reflexivity].
        specialize (H3 j L). apply nth_error_nth with (d := false) in H3. rewrite H3. reflexivity. }
    split; [exact Ht|]. split.
    - intros [H1 H2]. unfold o, split_prio in H2. cbn [s_rd] in H2. apply any_true in H2.
      destruct H2 as [k0 H2]. destruct (least_true _ _ H2) as [k [Hk Hl]]. exists k. apply Ht.
      split; [exact H1|]. split; [apply nth_error_nth_b, Hk|]. intros j Hj.
      assert (j < length (s_rds i)) as Hjl.
      { destruct (Nat.lt_ge_cases k (length (s_rds i))); [lia|]. rewrite nth_overflow in Hk by assumption. discriminate. }
      rewrite (nth_error_nth' _ false) by exact Hjl. rewrite Hl by exact Hj. reflexivity.
    - intros [k Hk]. apply Ht in Hk. destruct Hk as [H1 [H2 _]]. split; [exact H1|].
      apply any_true. exists k. apply nth_error_nth_b, H2.
  Qed.
End Split.

(** HsSplitSelect *)
Section SplitSel.
  Context {A : Type}.
  Variables (x : bool) (n : nat).

  (** one cycle: with a one-hot select held, the word goes to the named output *)
  Lemma onehot_switch {B} k (rds : list bool) (f : bool -> B) d : k < n -> length rds = n ->
    switch (map (fun br => (fst br, f (snd br))) (combine (onehot n k) rds)) d = f (nth k rds false).
  Proof.
    intros Hk Hn. apply switch_first with (k := k).
    - rewrite nth_error_map.
      rewrite (nth_error_nth' _ (false, false)) by (rewrite combine_length, len_onehot; lia).
      rewrite combine_nth by (rewrite len_onehot; lia). simpl.
      rewrite nth_onehot, Nat.eqb_refl by exact Hk. reflexivity.
    - intros j b c Hj E. rewrite nth_error_map in E.
      destruct (nth_error (combine (onehot n k) rds) j) as [[p q]|] eqn:E2; [|discriminate].
      simpl in E. injection E as <- _.
      apply nth_error_nth with (d := (false, false)) in E2.
      rewrite combine_nth in E2 by (rewrite len_onehot; lia). injection E2 as <- _.
      rewrite nth_onehot by lia. destruct (Nat.eqb_spec j k); [lia|reflexivity].
  Qed.

  Definition sel_ok (st : stage (list bool)) : Prop :=
    sk st = KLat /\ (occ st = true -> exists k, k < n /\ sdat st = onehot n k).
  Definition pend (st : stage (list bool)) : list (list bool) := if occ st then [sdat st] else [].

  Lemma filter_onehot k (g : nat -> bool) (m : nat) : k < m -> g k = true -> (forall j, j < m -> j <> k -> g j = false) ->
    filter g (seq 0 m) = [k].
  Proof.
    intros Hk Hg Ho. replace m with (k + (1 + (m - k - 1))) by lia.
    rewrite seq_app, filter_app. cbn [plus seq filter]. rewrite Hg.
    assert (forall l, (forall j, In j l -> g j = false) -> filter g l = []) as F.
    { induction l as [|a l IH]; intros H; [reflexivity|]. simpl. rewrite H by (left; reflexivity).
      apply IH. intros j Hj. apply H. right. exact Hj. }
    rewrite !F; [reflexivity| |].
    - intros j Hj. apply in_seq in Hj. apply Ho; lia.
    - intros j Hj. apply in_seq in Hj. apply Ho; lia.
  Qed.

  Lemma filter_none (g : nat -> bool) m : (forall j, j < m -> g j = false) -> filter g (seq 0 m) = [].
  Proof.
    intros H. assert (forall l, (forall j, In j l -> g j = false) -> filter g l = []) as F.
    { induction l as [|a l IH]; intros H'; [reflexivity|]. simpl. rewrite H' by (left; reflexivity).
      apply IH. intros j Hj. apply H'. right. exact Hj. }
    apply F. intros j Hj. apply in_seq in Hj. apply H. lia.
  Qed.

  Lemma ssel_step st (i : ssel_in A) : sel_ok st -> env_ok n i ->
    let st' := fst (split_select x st i) in
    let c := (i, snd (split_select x st i)) in
    sel_ok st' /\
    map snd (ssel_taken c) = (if ss_vld i && ss_rd (snd c) then [ss_data i] else []) /\
    pend st ++ (if ss_sel_vld i && ss_sel_rd (snd c) then [ss_sel i] else []) =
      map (onehot n) (map fst (ssel_taken c)) ++ pend st'.
  Proof.
    intros [Hk Ho] [Hl Hs]. destruct st as [kd oc sd]. simpl in Hk. subst kd. simpl in Ho.
    destruct oc.
    - destruct (Ho eq_refl) as [k [Hkn ->]]. clear Ho.
      set (r := nth k (ss_rds i) false).
      assert (split_select x (mk_stage KLat true (onehot n k)) i =
        (stage_next (mk_stage KLat true (onehot n k)) (ss_sel_vld i) (ss_sel i) (r && ss_vld i && true),
         mk_ssout r (stage_rd (mk_stage KLat true (onehot n k)) (r && ss_vld i && true))
           (map (fun b => true && ss_vld i && b) (onehot n k)) (ss_data i))) as ->.
      { unfold split_select. cbn [occ sdat negb].
        rewrite (onehot_switch k (ss_rds i) (fun b => (b && ss_vld i && true, b)) (x, x) Hkn Hl). reflexivity. }
      cbn [fst snd]. unfold ssel_taken. cbn [fst snd ss_vlds ss_odata ss_rd ss_sel_rd].
      assert (forall j, j < n -> nth j (map (fun b => true && ss_vld i && b) (onehot n k)) false
                 = ss_vld i && (j =? k)) as Hv.
      { intros j Hj. rewrite nth_indep with (d' := (fun b => true && ss_vld i && b) false)
          by (rewrite map_length, len_onehot; exact Hj).
        rewrite (map_nth (fun b => true && ss_vld i && b)), nth_onehot by exact Hj. reflexivity. }
      rewrite Hl. destruct (ss_vld i && r) eqn:E.
      + apply andb_prop in E. destruct E as [Ev Er].
        rewrite (filter_onehot k); [|exact Hkn| |].
        2:{ rewrite Hv, Ev, Nat.eqb_refl by exact Hkn. exact Er. }
        2:{ intros j Hj Hne. rewrite Hv by exact Hj. destruct (Nat.eqb_spec j k); [lia|].
            rewrite andb_false_r. reflexivity. }
        rewrite Ev, Er. unfold stage_next, stage_rd, pend, sel_ok. cbn [sk occ sdat andb negb map fst snd].
        destruct (ss_sel_vld i) eqn:Es; cbn [andb negb occ sdat sk app].
        * repeat split; auto.
        * repeat split; auto; discriminate.
      + rewrite filter_none.
        2:{ intros j Hj. rewrite Hv by exact Hj. destruct (Nat.eqb_spec j k) as [->|Hne].
            - rewrite andb_true_r. exact E.
            - rewrite andb_false_r. reflexivity. }
        assert (r && ss_vld i && true = false) as -> by (rewrite andb_true_r, andb_comm; exact E).
        unfold stage_next, stage_rd, pend, sel_ok. cbn [sk occ sdat andb negb map fst snd app].
        rewrite !andb_false_r. cbn [sdat occ app]. repeat split; auto. intros _. exists k. auto.
    - assert (split_select x (mk_stage KLat false sd) i =
        (stage_next (mk_stage KLat false sd) (ss_sel_vld i) (ss_sel i) false,
         mk_ssout false (stage_rd (mk_stage KLat false sd) false)
           (map (fun b => false && ss_vld i && b) sd) (ss_data i))) as -> by reflexivity.
      cbn [fst snd]. unfold ssel_taken. cbn [fst snd ss_vlds ss_odata ss_rd ss_sel_rd].
      rewrite filter_none.
      2:{ intros j Hj. assert (nth j (map (fun b => false && ss_vld i && b) sd) false = false) as ->; [|reflexivity].
          destruct (Nat.lt_ge_cases j (length sd)) as [L|L].
          - rewrite nth_indep with (d' := (fun b => false && ss_vld i && b) false) by (rewrite map_length; exact L).
            rewrite (map_nth (fun b => false && ss_vld i && b)). reflexivity.
          - apply nth_overflow. rewrite map_length. exact L. }
      unfold stage_next, stage_rd, pend, sel_ok. cbn [sk occ sdat andb negb map fst snd app].
      rewrite !andb_false_r, andb_true_r. cbn [app].
      destruct (ss_sel_vld i) eqn:Es; cbn [app]; repeat split; auto; discriminate.
  Qed.

  Lemma ssel_run st (is : list (ssel_in A)) : sel_ok st -> (forall i, In i is -> env_ok n i) ->
    let t := trace (split_select x) st is in
    sel_ok (final (split_select x) st is) /\
    map snd (ssel_deliveries t) = ssel_words t /\
    pend st ++ ssel_selects t = map (onehot n) (map fst (ssel_deliveries t)) ++ pend (final (split_select x) st is).
  Proof.
    revert st. induction is as [|i is IH]; intros st Hst Hi.
    - cbn. rewrite app_nil_r. auto.
    - destruct (ssel_step st i Hst (Hi i (or_introl eq_refl))) as [H1 [H2 H3]].
      destruct (IH _ H1) as [H4 [H5 H6]]; [intros j Hj; apply Hi; right; exact Hj|].
      rewrite trace_cons, final_cons. cbv zeta.
      set (c := (i, snd (split_select x st i))) in *.
      unfold ssel_deliveries, ssel_words, ssel_selects in *. cbn [flat_map].
      rewrite !map_app, H2, H5. split; [exact H4|]. split; [reflexivity|].
      cbn [fst snd] in *. change (fst c) with i. rewrite app_assoc, H3, <- !app_assoc, H6. reflexivity.
  Qed.

  Lemma c16_select (d0 : list bool) (is : list (ssel_in A)) :
    (forall i, In i is -> env_ok n i) ->
    let t := trace (split_select x) (mk_stage KLat false d0) is in
    ssel_words t = map snd (ssel_deliveries t) /\
    exists pending, ssel_selects t = map (onehot n) (map fst (ssel_deliveries t)) ++ pending /\ length pending <= 1.
  Proof.
    intros Hi t.
    assert (sel_ok (mk_stage KLat false d0)) as H0 by (split; [reflexivity|discriminate]).
    destruct (ssel_run _ is H0 Hi) as [_ [H1 H2]]. fold t in H1, H2.
    split; [symmetry; exact H1|]. eexists. split; [exact H2|].
    unfold pend. destruct (occ _); simpl; lia.
  Qed.
End SplitSel.
