(** Checks of the hypotheses for given histories, and the histories of the examples. *)
From Verif Require Import Base BaseFacts LruaModel LruaSpec LruaProofs RamXorModel.

(** indexes used in a cycle *)
Definition used_list (n : nat) (c : l_in) : list nat :=
  if ln_set c then [ln_set_addr c]
  else (if ln_req c then [ln_req_addr c] else []) ++
       flat_map (fun j => if li_vld (ln_incr c j) then [li_index (ln_incr c j)] else []) (seq 0 n).

Lemma uses_in n c a : uses n c a -> In a (used_list n c).
Proof.
  unfold used_list. intros [[H1 H2]|[k [Hk Ht]]].
  - rewrite H1. left. exact H2.
  - unfold touch in Ht. apply andb_true_iff in Ht. destruct Ht as [Hs Ht]. apply negb_true_iff in Hs. rewrite Hs. apply in_or_app.
    destruct k as [|k].
    + left. apply andb_true_iff in Ht. destruct Ht as [H1 H2]. rewrite H1. apply Nat.eqb_eq in H2. left. exact H2.
    + right. apply andb_true_iff in Ht. destruct Ht as [H1 H2]. apply andb_true_iff in H1. destruct H1 as [H0 H1].
      apply in_flat_map. exists k. split; [apply in_seq; lia|]. rewrite H1. apply Nat.eqb_eq in H2. left. exact H2.
Qed.

Definition disjoint (l l' : list nat) : bool := forallb (fun a => negb (existsb (Nat.eqb a) l')) l.
Lemma disjoint_ok l l' a : disjoint l l' = true -> In a l -> In a l' -> False.
Proof.
  unfold disjoint. intros H1 H2 H3. rewrite forallb_forall in H1. specialize (H1 a H2). apply negb_true_iff in H1.
  rewrite <- not_true_iff_false in H1. apply H1. apply existsb_exists. exists a. split; [exact H3|apply Nat.eqb_refl].
Qed.

Definition spaced_chk (n : nat) (is : list l_in) : bool :=
  forallb (fun i => forallb (fun d =>
    match nth_error is i, nth_error is (i + d) with
    | Some c, Some c' => disjoint (used_list n c) (used_list n c') | _, _ => true end) [1; 2]) (seq 0 (length is)).
Lemma spaced_ok n is : spaced_chk n is = true -> spaced n is.
Proof.
  unfold spaced_chk. intros H i j c c' a Hc Hc' Hij U U'. rewrite forallb_forall in H.
  assert (Hi : In i (seq 0 (length is))) by (apply in_seq; split; [lia|]; apply nth_error_Some; rewrite Hc; discriminate).
  specialize (H i Hi). rewrite forallb_forall in H. specialize (H (j - i)).
  assert (Hd : In (j - i) [1; 2]) by (cbn; lia). specialize (H Hd). replace (i + (j - i)) with j in H by lia.
  rewrite Hc, Hc' in H. eapply disjoint_ok; [exact H|apply uses_in; exact U|apply uses_in; exact U'].
Qed.

Definition held1 (n : nat) (c c' : l_in) : bool :=
  implb (negb (ln_set c) && ln_req c) (negb (ln_set c') && (ln_req_addr c' =? ln_req_addr c)) &&
  forallb (fun j => implb (negb (ln_set c) && li_vld (ln_incr c j))
    (negb (ln_set c') && (li_index (ln_incr c' j) =? li_index (ln_incr c j)) && (li_way (ln_incr c' j) =? li_way (ln_incr c j)))) (seq 0 n).
Fixpoint held_chk (n : nat) (is : list l_in) : bool :=
  match is with
  | c :: ((c' :: _) as is') => held1 n c c' && held_chk n is'
  | _ => true
  end.
Lemma held_ok n is : held_chk n is = true -> held n is.
Proof.
  induction is as [|c is IH]; intros H i x x' k a Hx Hx' Hk Ht; [destruct i; discriminate Hx|].
  destruct is as [|c' is]; [destruct i as [|[|i]]; discriminate Hx'|].
  cbn [held_chk] in H. apply andb_true_iff in H. destruct H as [H1 H2].
  destruct i as [|i]; [|apply (IH H2 i x x' k a Hx Hx' Hk Ht)].
  cbn in Hx, Hx'. injection Hx as <-. injection Hx' as <-.
  unfold held1 in H1. apply andb_true_iff in H1. destruct H1 as [H0 H1].
  unfold touch in Ht. apply andb_true_iff in Ht. destruct Ht as [Hs Ht].
  destruct k as [|j].
  - apply andb_true_iff in Ht. destruct Ht as [T1 T2]. apply Nat.eqb_eq in T2. rewrite Hs, T1 in H0. cbn [andb implb] in H0.
    apply andb_true_iff in H0. destruct H0 as [A B]. apply negb_true_iff in A. apply Nat.eqb_eq in B. split; [exact A|]. congruence.
  - apply andb_true_iff in Ht. destruct Ht as [T1 T2]. apply andb_true_iff in T1. destruct T1 as [_ T1]. apply Nat.eqb_eq in T2.
    rewrite forallb_forall in H1. specialize (H1 j). assert (Hj : In j (seq 0 n)) by (apply in_seq; lia). specialize (H1 Hj).
    rewrite Hs, T1 in H1. cbn [andb implb] in H1. apply andb_true_iff in H1. destruct H1 as [H1 C].
    apply andb_true_iff in H1. destruct H1 as [A B]. apply negb_true_iff in A. apply Nat.eqb_eq in B, C. repeat split; [exact A|congruence|exact C].
Qed.

Lemma taken_ok is : forallb ln_rd is = true -> taken_at_once is.
Proof. intros H c Hc. rewrite forallb_forall in H. apply H. exact Hc. Qed.

(** cycles of an array with two incr ports; the pins of incr are (valid, index, way) *)
Definition cyc2 (req : bool) (ra : nat) (rd : bool) (p q : bool * nat * nat) : l_in :=
  mk_lin false 0 0%N req ra rd (fun k => let '(v, i, w) := match k with 0 => p | _ => q end in mk_li v i w).
Definition cyc_set (a : nat) (d : N) : l_in := mk_lin true a d false 0 true (fun _ => mk_li false 0 0).
Definition off : bool * nat * nat := (false, 0, 0).
Definition l0 : l_st := l_init 0 (fun _ => 0) (fun _ _ => 0%N) (fun _ _ => 0%N) (fun _ => 0) (fun _ => 0%N).
Notation lstep := (l_step 2 doc_mark doc_lru).
Notation lrec := (record 2 doc_mark doc_lru).
Definition idle := cyc2 false 0 true off off.
(** a request for a victim of index [a], and the cycle after it in which its address is held *)
Definition ask (a : nat) := cyc2 true a true off off.
Definition hold (a : nat) := cyc2 false a true off off.
(** two records are initialised and both ports use ways of record 5 in the same cycle *)
Definition ex_hist : list l_in :=
  [cyc_set 5 3%N; cyc_set 6 1%N; idle; idle; cyc2 true 6 true (true, 5, 2) (true, 5, 1); cyc2 false 6 true (false, 5, 2) (false, 5, 1); idle].
