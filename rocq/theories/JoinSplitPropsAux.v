From Verif Require Import Base BaseFacts JoinSplitModel JoinSplitSpec JoinSplitProofs.

Definition J2 (a b : option nat) (rd : bool) : join_in nat :=
  mk_jin [match a with Some d => (true, d) | None => (false, 0) end;
          match b with Some d => (true, d) | None => (false, 0) end] rd.

(** C11: the offered word changes while it is not accepted. *)
Lemma c11_bad :
  exists (i j : join_in nat),
    let o := snd (join_fair 0 (prio_init 2) i) in
    let o' := snd (join_fair 0 (fst (join_fair 0 (prio_init 2) i)) j) in
    j_vld o = true /\ j_rd i = false /\ j_in j = j_in i /\ j_vld o' = true /\ j_data o' <> j_data o.
Proof. exists (J2 (Some 1) (Some 2) false), (J2 (Some 1) (Some 2) false). vm_compute. repeat split. discriminate. Qed.

(** C45: a consumer which is ready every other cycle starves input 1. *)
Fixpoint slow_cycles (n : nat) : list (join_in nat) :=
  match n with
  | 0 => []
  | S m => J2 (Some 7) (Some 8) true :: J2 (Some 7) (Some 8) false :: slow_cycles m
  end.

Lemma slow_run n : final (join_fair 0) (prio_init 2) (slow_cycles n) = prio_init 2 /\
  forall m j o, nth_error (slow_cycles n) m = Some j ->
     nth_error (outs (join_fair 0) (prio_init 2) (slow_cycles n)) m = Some o -> ~ in_moves j o 1.
Proof.
  induction n as [|n [IH1 IH2]]; [split; [reflexivity|intros [|m]; discriminate]|].
  cbn [slow_cycles].
  assert (forall l, final (join_fair 0) (prio_init 2) (J2 (Some 7) (Some 8) true :: J2 (Some 7) (Some 8) false :: l)
                    = final (join_fair 0) (prio_init 2) l) as Ef.
  { intros l. rewrite !final_cons. reflexivity. }
  rewrite Ef. split; [exact IH1|].
  intros m j o. rewrite !outs_cons.
  destruct m as [|[|m]].
  - cbn [nth_error]. intros [= <-] [= <-] [d [H1 H2]]. vm_compute in H2. discriminate.
  - cbn [nth_error]. intros [= <-] [= <-] [d [H1 H2]]. vm_compute in H2. discriminate.
  - cbn [nth_error]. intros Hj Ho. apply (IH2 m j o Hj). exact Ho.
Qed.

Lemma c45_bad :
  forall n, exists js : list (join_in nat),
    length (filter (fun j => j_rd j) js) = n /\
    (forall j, In j js -> in_word j 1 8) /\
    forall m j o, nth_error js m = Some j ->
       nth_error (outs (join_fair 0) (prio_init 2) js) m = Some o -> ~ in_moves j o 1.
Proof.
  intros n. exists (slow_cycles n). split; [|split].
  - induction n as [|n IH]; [reflexivity|].
    cbn [slow_cycles filter J2 j_rd length]. f_equal. apply IH.
  - induction n as [|n IH]; [intros j []|]. intros j [<-|[<-|Hj]]; [reflexivity|reflexivity|]. apply IH, Hj.
  - apply slow_run.
Qed.

(** C15: both bits of selectedOneHot set. *)
Lemma c15_bad :
  exists is i, let o := snd (split_fair true (final (split_fair true) (prio_init 2) is) i) in
    nout i = 2 /\ din_moves i o /\ s_sel_vld o = true /\ s_sel o = [true; true].
Proof.
  exists [mk_sin false [false; false] true], (mk_sin true [true; false] true). vm_compute. repeat split.
Qed.
