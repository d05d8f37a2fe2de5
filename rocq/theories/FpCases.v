(** Concrete runs of Axi4S_frameParser. *)
From Verif Require Import Base BaseFacts FpModel FpSpec.

Fixpoint tobits (n v : nat) : list bool := match n with 0 => [] | S n' => Nat.odd v :: tobits n' (v / 2) end.
Fixpoint tonat (l : list bool) : nat := match l with [] => 0 | b :: l' => (if b then 1 else 0) + 2 * tonat l' end.
(** words of the input *)
Definition fsrc (k : nat) : list bool := tobits 8 (17 + k * 37).
(** structures for words of 8 bits: 12 bits, padding of 4 bits, 4 bits, 2 bits, 10 bits; some smaller ones *)
Definition fl1 : list fld := [mk_fld 12 true; mk_fld 4 false; mk_fld 4 true; mk_fld 2 true; mk_fld 10 true].
Definition fl2 : list fld := [mk_fld 8 true; mk_fld 4 true].
Definition fl3 : list fld := [mk_fld 8 true; mk_fld 8 true].
(** inputs of a run: when the source offers a word and which fields are ready *)
Fixpoint drive (W : nat) (fields : list fld) (OVF UNF : bool) (src : nat -> list bool) (lst : nat -> bool) (s : p_st) (n : nat) (l : list (bool * list bool)) : list p_in :=
  match l with
  | [] => []
  | (v, rd) :: l' =>
    let i := mk_pi v (src n) (lst n) (fun j => nth j rd false) in
    let '(s', o) := p_step W fields OVF UNF s i in
    i :: drive W fields OVF UNF src lst s' (if v && o_r o then S n else n) l'
  end.
Fixpoint beq (a b : list bool) : bool := match a, b with [], [] => true | x :: a', y :: b' => Bool.eqb x y && beq a' b' | _, _ => false end.
Lemma beq_ok : forall a b, beq a b = true -> a = b.
Proof.
  induction a as [|x a IH]; intros [|y b] H; try discriminate; [reflexivity|]. cbn in H. apply andb_prop in H. destruct H as [H1 H2]. apply Bool.eqb_prop in H1. subst. f_equal. apply IH. exact H2.
Qed.
Fixpoint feedsb (src : nat -> list bool) (lst : nat -> bool) (n : nat) (t : list (p_in * p_out)) : bool :=
  match t with
  | [] => true
  | c :: t' => (negb (i_v (fst c)) || (beq (i_d (fst c)) (src n) && Bool.eqb (i_l (fst c)) (lst n))) && feedsb src lst (if i_v (fst c) && o_r (snd c) then S n else n) t'
  end.
Lemma feedsb_ok : forall src lst t n, feedsb src lst n t = true -> feeds src lst n t.
Proof.
  induction t as [|c t IH]; intros n H; [exact I|]. cbn [feedsb] in H. apply andb_prop in H. destruct H as [H1 H2]. cbn [feeds]. split; [|apply IH; exact H2].
  intros V. rewrite V in H1. cbn in H1. apply andb_prop in H1. destruct H1 as [A B]. split; [apply beq_ok; exact A|apply Bool.eqb_prop; exact B].
Qed.
Definition r00 : nat -> nat -> list bool := fun _ _ => [].
Definition pat (k : nat) : list bool := [Nat.odd k; true; k mod 3 =? 0; negb (k mod 4 =? 1); true].
Definition sched (n : nat) : list (bool * list bool) := map (fun k => (negb (k mod 5 =? 2), pat k)) (seq 0 n).
Definition fl_lst0 (k : nat) : bool := false.
(** frames end after words 3, 5 (short), 13 (long) *)
Definition fl_lst1 (k : nat) : bool := (k =? 3) || (k =? 5) || (k =? 13).
Definition frun1 : list p_in := drive 8 fl1 false false fsrc fl_lst0 (p_init fl1 r00) 0 (sched 24).
Definition frun2 : list p_in := drive 8 fl1 true false fsrc fl_lst1 (p_init fl1 r00) 0 (sched 40).
(** frames end after words 3, 5 (short), 7 (short), 11, 15... *)
Definition fl_lst2 (k : nat) : bool := (k =? 5) || (k mod 4 =? 3).
Lemma fl_lst2_short : forall k, place true 4 fl_lst2 k = 3 -> fl_lst2 k = true.
Proof.
  assert (B : forall k, place true 4 fl_lst2 k <= k mod 4).
  { induction k as [|k IH]; [cbn; lia|]. cbn [place]. destruct (fl_lst2 k) eqn:E; [apply Nat.le_0_l|].
    unfold fl_lst2 in E. apply Bool.orb_false_iff in E. destruct E as [_ E]. apply Nat.eqb_neq in E.
    pose proof (Nat.div_mod k 4 ltac:(lia)) as D. pose proof (Nat.mod_upper_bound k 4 ltac:(lia)) as M.
    assert (Q : S k mod 4 = S (k mod 4)) by (symmetry; apply (Nat.mod_unique (S k) 4 (k / 4)); lia). lia. }
  intros k H. specialize (B k). pose proof (Nat.mod_upper_bound k 4 ltac:(lia)) as M. unfold fl_lst2. replace (k mod 4) with 3 by lia. apply Bool.orb_true_r.
Qed.
Definition frun3 : list p_in := drive 8 fl1 false true fsrc fl_lst2 (p_init fl1 r00) 0 (sched 40).
(** all fields are always ready *)
Definition go (n : nat) : list (bool * list bool) := repeat (true, [true; true; true; true]) n.
Definition fl_every (N k : nat) : bool := k mod N =? N - 1.
Definition frun4 : list p_in := drive 8 fl2 true false fsrc (fl_every 2) (p_init fl2 r00) 0 (go 6).
Definition frun5 : list p_in := drive 8 fl3 true true fsrc (fl_every 3) (p_init fl3 r00) 0 (go 6).
Definition fl4 : list fld := [mk_fld 8 true; mk_fld 8 true; mk_fld 8 true].
Definition frun6 (n : nat) : list p_in := drive 8 fl4 false true fsrc (fl_every 4) (p_init fl4 r00) 0 (go n).

(** the index behind the last word *)
Lemma fl4_stuck : forall is s, p_wi s = 3 -> eaten (trace (p_step 8 fl4 false true) s is) = 0.
Proof.
  induction is as [|i is IH]; intros s H; [reflexivity|]. rewrite trace_cons. unfold eaten. cbn [filter fst snd].
  assert (R : o_r (snd (p_step 8 fl4 false true s i)) = false) by (cbn [p_step snd o_r]; rewrite H; reflexivity).
  rewrite R, Bool.andb_false_r. apply IH. cbn [p_step fst p_wi]. rewrite H. cbn. rewrite Bool.andb_false_r. reflexivity.
Qed.
