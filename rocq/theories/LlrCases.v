(** Example data for CLinkedListReader. *)
From Verif Require Import Base LlrModel LlrSpec.

(** a list of two nodes at 64 and 256 with 5 items of 8 bytes, the second points to the first *)
Definition ring (a : nat) : nat := if a =? 104 then 256 else if a =? 296 then 64 else 1000 + a.
(** the same with [n] items, one node at 64 which points to itself *)
Definition loop1 (n a : nat) : nat := if a =? 64 + n * 8 then 64 else 1000 + a.

Section Play.
  Variables ID IDL CAP ITEMS AW DW PW B : nat.
  Variable mem : nat -> nat.
  (** inputs of a datapump which serves requests; it is busy in the cycles of [busy], wrPtr is written in the cycles of [ann] *)
  Fixpoint play (busy : nat -> bool) (ann : nat -> option nat) (n k : nat) (s : l_st) (due : list (nat * nat * bool)) : list l_in :=
    match n with
    | 0 => []
    | S n =>
        let '(v, (id, d, l)) := match due with [] => (false, (0, 0, false)) | w :: _ => (negb (busy k), w) end in
        let i := mk_li v id d l (negb (busy (k + 1))) (negb (busy (k + 2))) (if k =? 0 then Some 64 else None) None (ann k) in
        let so := l_step ID IDL CAP ITEMS AW DW PW s i in
        i :: play busy ann n (S k) (fst so) ((if took (i, snd so) then tl due else due) ++ flat_map (fun r => let '(id, a, n) := r in answer mem B AW id a n) (requests [(i, snd so)]))
    end.
End Play.
Definition never (_ : nat) : bool := false.
Definition every3 (k : nat) : bool := k mod 3 =? 1.

Definition weq (x y : nat * nat * bool) : bool := let '(a, b, c) := x in let '(a', b', c') := y in (a =? a') && (b =? b') && Bool.eqb c c'.
Section Check.
  Variables (mem : nat -> nat) (B AW IDL PW : nat).
  Definition nxt (due : list (nat * nat * bool)) (c : l_in * l_out) := (if took c then tl due else due) ++ flat_map (fun r => let '(id, a, n) := r in answer mem B AW id a n) (requests [c]).
  Fixpoint honestb (due : list (nat * nat * bool)) (t : list (l_in * l_out)) : bool :=
    match t with
    | [] => true
    | c :: t' => (negb (r_v (fst c)) || match due with w :: _ => weq w (r_id (fst c), r_d (fst c), r_l (fst c)) | [] => false end) && honestb (nxt due c) t'
    end.
  Fixpoint servesb (due : list (nat * nat * bool)) (t : list (l_in * l_out)) : bool :=
    match t with
    | [] => true
    | c :: t' => q_rd (fst c) && d_rd (fst c) && (r_v (fst c) || match due with [] => true | _ => false end) && servesb (nxt due c) t'
    end.
  Fixpoint fitsb (w r : nat) (t : list (l_in * l_out)) : bool :=
    match t with
    | [] => true
    | c :: t' => (next_ann PW w (fst c) <? r + 2 ^ PW) && fitsb (next_ann PW w (fst c)) (r + if took_item IDL c then 1 else 0) t'
    end.
  Lemma weq_ok x y : weq x y = true -> x = y.
  Proof.
    destruct x as [[a b] c], y as [[a' b'] c']. unfold weq. intros H. apply andb_true_iff in H. destruct H as [H H3]. apply andb_true_iff in H. destruct H as [H1 H2].
    apply Nat.eqb_eq in H1. apply Nat.eqb_eq in H2. apply Bool.eqb_prop in H3. congruence.
  Qed.
  Lemma honestb_ok t : forall due, honestb due t = true -> honest mem B AW due t.
  Proof.
    induction t as [|c t IH]; intros due; cbn [honestb honest]; [auto|]. intros H. apply andb_true_iff in H. destruct H as [H1 H2]. split; [|apply IH; exact H2].
    intros E. rewrite E in H1. cbn in H1. destruct due as [|w due']; [discriminate|]. apply weq_ok in H1. exists due'. congruence.
  Qed.
  Lemma servesb_ok t : forall due, servesb due t = true -> serves mem B AW due t.
  Proof.
    induction t as [|c t IH]; intros due; cbn [servesb serves]; [auto|]. intros H. apply andb_true_iff in H. destruct H as [H H2]. apply andb_true_iff in H. destruct H as [H H1]. apply andb_true_iff in H. destruct H as [H3 H4].
    split; [|apply IH; exact H2]. split; [exact H3|]. split; [exact H4|]. intros N. destruct due; [congruence|]. rewrite orb_false_r in H1. exact H1.
  Qed.
  Lemma fitsb_ok t : forall w r, fitsb w r t = true -> fits IDL PW w r t.
  Proof.
    induction t as [|c t IH]; intros w r; cbn [fitsb fits]; [auto|]. intros H. apply andb_true_iff in H. destruct H as [H1 H2]. split; [|apply IH; exact H2]. apply Nat.ltb_lt. exact H1.
  Qed.
End Check.
Lemma keeps_ok is : forallb (fun i => match s_base i, s_rd i with None, None => true | _, _ => false end) is = true -> keeps is.
Proof. intros H. apply Forall_forall. intros i Hi. rewrite forallb_forall in H. specialize (H i Hi). cbn in H. destruct (s_base i), (s_rd i); try discriminate. auto. Qed.

(** 12 items are announced, then 7 more *)
Definition ann1 (k : nat) : option nat := if k =? 2 then Some 12 else if k =? 40 then Some 3 else None.
Definition run1 : list l_in := play 3 4 8 5 10 64 4 8 ring every3 ann1 90 0 (l_init 8 5 (fun _ => 0) 0 0) [].
Definition run2 : list l_in := play 3 4 8 5 10 64 4 8 ring never ann1 60 0 (l_init 8 5 (fun _ => 0) 0 0) [].
(** a block of 16 items and pointers of 4 bits, 3 items are announced *)
Definition ann3 (k : nat) : option nat := if k =? 2 then Some 3 else None.
Definition run3 : list l_in := play 3 4 8 16 10 64 4 8 (loop1 16) never ann3 30 0 (l_init 8 16 (fun _ => 0) 0 0) [].
(** words of one byte, 12 items are announced *)
Definition run4 : list l_in := play 3 4 8 5 8 8 4 1 (fun a => 100 + a) never ann1 30 0 (l_init 8 5 (fun _ => 0) 0 0) [].
