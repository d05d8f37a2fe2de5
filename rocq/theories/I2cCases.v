(** Histories for the examples of the I2C bit controller, and a check of [polite]. *)
From Verif Require Import Base BaseFacts I2cModel I2cSpec I2cProofs.

(** commands for each cycle with the lines as the controller drives them, other devices pull lines low by [fscl], [fsda] *)
Fixpoint drive (fscl fsda : bool -> bool) (c : nat) (s : i2c) (cmds : list (nat * bool)) : list i2c_in :=
  match cmds with
  | [] => []
  | x :: r => let i := mk_i c (fst x) (snd x) (fscl (negb (s_scl s))) (fsda (negb (s_sda s))) in i :: drive fscl fsda c (fst (i2c_step s i)) r
  end.
Definition free (b : bool) := b.
Definition pulled (b : bool) := false.
Definition start_bit := repeat (START, false) 6.
Definition write_bit (b : bool) := repeat (WRITE, b) 5.
Definition read_bit := repeat (READ, false) 5.
Definition stop_bit := repeat (STOP, false) 5.
Definition nops n := repeat (NOP, false) n.
Definition bus c cmds := drive free free c (i2c_init c) cmds.

Definition hold_ok (prev : option (i2c_in * bool)) (x : i2c_in) : bool :=
  match prev with Some (z, rd) => (i_cmd z =? NOP) || rd || ((i_cmd x =? i_cmd z) && Bool.eqb (i_din x) (i_din z)) | None => true end.
Definition start_ok (s : i2c) (x : i2c_in) : bool :=
  match s_st s with idle => s_scl s || negb ((i_cmd x =? STOP) || (i_cmd x =? READ) || (i_cmd x =? WRITE)) | _ => true end.
Fixpoint politeb (s : i2c) (prev : option (i2c_in * bool)) (is : list i2c_in) : bool :=
  match is with
  | [] => true
  | x :: r => start_ok s x && hold_ok prev x && politeb (fst (i2c_step s x)) (Some (x, o_rd (snd (i2c_step s x)))) r
  end.
Lemma politeb_hold is : forall s prev p x y q, politeb s prev is = true -> is = p ++ x :: y :: q ->
  hold_ok (Some (x, o_rd (snd (i2c_step (final i2c_step s p) x)))) y = true.
Proof.
  induction is as [|i is IH]; intros s prev p x y q H E; [destruct p; discriminate|]. cbn [politeb] in H. apply andb_prop in H as [H1 H]. destruct p as [|i' p].
  - cbn [app] in E. pose proof (f_equal (hd i) E) as E1. pose proof (f_equal (@tl _) E) as E2. cbn [hd tl] in E1, E2. subst i is. cbn [politeb] in H. apply andb_prop in H as [H _]. apply andb_prop in H as [_ H]. exact H.
  - cbn [app] in E. pose proof (f_equal (hd i) E) as E1. pose proof (f_equal (@tl _) E) as E2. cbn [hd tl] in E1, E2. subst i'. rewrite final_cons. eapply IH; eassumption.
Qed.
Lemma politeb_start is : forall s prev p x q, politeb s prev is = true -> is = p ++ x :: q -> start_ok (final i2c_step s p) x = true.
Proof.
  induction is as [|i is IH]; intros s prev p x q H E; [destruct p; discriminate|]. cbn [politeb] in H. apply andb_prop in H as [H1 H]. apply andb_prop in H1 as [H1 _]. destruct p as [|i' p].
  - cbn [app] in E. pose proof (f_equal (hd i) E) as E1. cbn [hd] in E1. subst i. exact H1.
  - cbn [app] in E. pose proof (f_equal (hd i) E) as E1. pose proof (f_equal (@tl _) E) as E2. cbn [hd tl] in E1, E2. subst i'. rewrite final_cons. eapply IH; eassumption.
Qed.
Lemma politeb_ok c is : politeb (i2c_init c) None is = true -> polite c is.
Proof.
  intros H. split.
  - intros p x q E I C. pose proof (politeb_start is _ _ p x q H E) as S. unfold start_ok in S. rewrite I in S.
    destruct (s_scl _); [reflexivity|]. destruct C as [C|[C|C]]; rewrite C in S; discriminate.
  - intros p x y q E N R. pose proof (politeb_hold is _ _ p x y q H E) as S. unfold hold_ok in S. rewrite R, orb_false_r in S.
    destruct (Nat.eqb_spec (i_cmd x) NOP); [contradiction|]. cbn [orb] in S. apply andb_prop in S as [S1 S2].
    apply Nat.eqb_eq in S1. apply Bool.eqb_prop in S2. auto.
Qed.
Lemma forall_b {A} (f : A -> bool) l : forallb f l = true -> Forall (fun a => f a = true) l.
Proof. intros H. apply Forall_forall, forallb_forall, H. Qed.
Lemma forall_nb {A} (f : A -> bool) l : forallb (fun a => negb (f a)) l = true -> Forall (fun a => f a = false) l.
Proof. intros H. rewrite forallb_forall in H. apply Forall_forall. intros x Hx. apply negb_true_iff, H, Hx. Qed.

Definition session : list seg :=
  map (fun x => command (fst (fst x)) (snd (fst x)) (repeat (mk_i 9 (fst (fst x)) (snd (fst x)) true true) (snd x)))
    [((START, false), 6); ((WRITE, true), 5); ((WRITE, false), 5); ((READ, false), 5); ((START, true), 6)] ++ [no_cmd (mk_i 9 NOP true true true)] ++
  [command STOP false (repeat (mk_i 9 STOP false true true) 5)].
Definition talk := start_bit ++ write_bit true ++ write_bit false ++ read_bit.
