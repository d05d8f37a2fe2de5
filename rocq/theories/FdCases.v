(** Concrete runs of Axi4S_frameDeparser. *)
From Verif Require Import Base FpModel FpSpec FpCases FdModel FdSpec.

(** values of the fields *)
Definition fvals (fields : list fld) (j n : nat) : list bool := tobits (width fields j) (3 + 7 * j + 11 * n + 29 * j * n).
(** inputs of a run: which fields are offered, whether the receiver is ready; padding is 1 for words of 8 bits *)
Fixpoint ddrive (W : nat) (fields : list fld) (vals : nat -> nat -> list bool) (s : d_st) (n : list nat) (l : list (list bool * bool)) : list d_in :=
  match l with
  | [] => []
  | (v, r) :: l' =>
    let i := mk_di (fun j => nth j v false) (fun j => vals j (nth j n 0)) r (repeat (W =? 8) W) in
    let '(s', o) := d_step W fields s i in
    i :: ddrive W fields vals s' (map (fun j => if nth j v false && q_rd o j then S (nth j n 0) else nth j n 0) (seq 0 (length fields))) l'
  end.
Fixpoint suppliesb (fields : list fld) (vals : nat -> nat -> list bool) (n : list nat) (t : list (d_in * d_out)) : bool :=
  match t with
  | [] => true
  | c :: t' => forallb (fun j => negb (d_v (fst c) j) || beq (d_d (fst c) j) (vals j (nth j n 0))) (seq 0 (length fields)) &&
               suppliesb fields vals (map (fun j => if d_v (fst c) j && q_rd (snd c) j then S (nth j n 0) else nth j n 0) (seq 0 (length fields))) t'
  end.
Lemma suppliesb_ok : forall fields vals t n f, (forall j, j < length fields -> nth j n 0 = f j) -> suppliesb fields vals n t = true -> supplies fields vals f t.
Proof.
  induction t as [|c t IH]; intros n f E H; [exact I|]. cbn [suppliesb] in H. apply andb_prop in H. destruct H as [H1 H2]. cbn [supplies]. split.
  - intros j Hj V. rewrite forallb_forall in H1. specialize (H1 j ltac:(apply in_seq; destruct Hj; lia)). rewrite V in H1. cbn [negb orb] in H1. rewrite <- (E j (proj1 Hj)). apply beq_ok. exact H1.
  - refine (IH _ _ _ H2). intros j Hj. rewrite (nth_indep _ 0 ((fun j => if d_v (fst c) j && q_rd (snd c) j then S (nth j n 0) else nth j n 0) 0)) by (rewrite map_length, seq_length; exact Hj).
    rewrite (map_nth (fun j => if d_v (fst c) j && q_rd (snd c) j then S (nth j n 0) else nth j n 0)), seq_nth by exact Hj. cbn [Nat.add]. rewrite (E j Hj). reflexivity.
Qed.
(** fields for words of 8 bits: 8, 4, padding 4, 16, 8: no word with both an end and a begin of a longer field *)
Definition gl1 : list fld := [mk_fld 8 true; mk_fld 4 true; mk_fld 4 false; mk_fld 16 true; mk_fld 8 true].
Lemma gl1_proper : proper 8 gl1.
Proof. split; [lia|]. split; [discriminate|]. cbn. intros f [<-|[<-|[<-|[<-|[<-|[]]]]]]; cbn; lia. Qed.
Lemma gl1_tidy : tidy 8 gl1.
Proof.
  intros a b w Ha Hb He [H1 H2]. destruct Ha as [Ha _], Hb as [Hb _]. cbn in Ha, Hb.
  do 5 (destruct a as [|a]; [do 5 (destruct b as [|b]; [cbn in *; lia|]); lia|]). lia.
Qed.
Definition gsched (n : nat) : list (list bool * bool) := map (fun k => ([Nat.odd k; k mod 3 =? 0; false; negb (k mod 4 =? 1); true], negb (k mod 5 =? 3))) (seq 0 n).
Definition grun1 : list d_in := ddrive 8 gl1 (fvals gl1) (d_init 8 gl1) [0; 0; 0; 0; 0] (gsched 36).
(** 8 and 16 bits in words of 16 bits *)
Definition gl2 : list fld := [mk_fld 8 true; mk_fld 16 true].
Definition grun2 : list d_in := ddrive 16 gl2 (fvals gl2) (d_init 16 gl2) [0; 0] [([true; false], true); ([true; true], true); ([true; true], true); ([true; true], true)].
Definition grun3 : list d_in := ddrive 16 gl2 (fvals gl2) (d_init 16 gl2) [0; 0] [([true; true], true); ([false; false], true); ([true; true], false); ([true; true], true); ([true; true], true); ([true; true], true)].
(** the words of the first run as an input of the parser *)
Definition glist : list (list bool) := sent (trace (d_step 8 gl1) (d_init 8 gl1) grun1).
Definition gsrc (k : nat) : list bool := firstn 8 (nth k glist [] ++ repeat false 8).
Lemma gsrc_len : forall k, length (gsrc k) = 8.
Proof. intros k. unfold gsrc. rewrite firstn_length, app_length, repeat_length. lia. Qed.
Lemma words_ok : forall (L : list (list bool)) (f : nat -> list bool), forallb (fun k => beq (f k) (nth k L [])) (seq 0 (length L)) = true -> forall k, k < length L -> f k = nth k L [].
Proof. intros L f B k Hk. rewrite forallb_forall in B. apply beq_ok. apply (B k). apply in_seq. lia. Qed.
Lemma gsrc_ok : forall k, k < length glist -> gsrc k = nth k glist [].
Proof. refine (words_ok glist gsrc _). vm_compute. reflexivity. Qed.
Definition hrun1 : list p_in := drive 8 gl1 false false gsrc fl_lst0 (p_init gl1 r00) 0 (sched 20).
Definition togetherb (fields : list fld) (i : d_in) : bool := forallb (fun a => forallb (fun b => Bool.eqb (d_v i a) (d_v i b)) (seq 0 (length fields))) (seq 0 (length fields)).
Lemma togetherb_ok : forall fields is, forallb (togetherb fields) is = true -> Forall (together fields) is.
Proof.
  intros fields is H. rewrite forallb_forall in H. apply Forall_forall. intros i Hi a b [Ha _] [Hb _]. specialize (H i Hi). unfold togetherb in H. rewrite forallb_forall in H. specialize (H a ltac:(apply in_seq; lia)).
  rewrite forallb_forall in H. apply Bool.eqb_prop. apply H. apply in_seq. lia.
Qed.
