From Verif Require Import Base BaseFacts FifoModel FifoDropModel FifoDropSpec FifoDropProofs.

Definition Dw (x : nat) (commit : bool) := mk_fdin true x commit false false.
Definition Dr := mk_fdin false 0 false false true.
Definition Didle := mk_fdin false 0 false false false.
Definition Ddisc := mk_fdin false 0 false true false.

(** two words in flight, one commit, one discarded frame, reads across the wrap *)
Definition c19_hist := [Dw 1 false; Dw 2 true; Dr; Dw 3 false; Ddisc; Dw 4 false; Dr; Dw 5 true; Dr; Dr; Didle].
(** read of the last cell in the same cycle as a discard *)
Definition c19_bad := [Dw 1 true; Dw 2 true; Dr; mk_fdin false 0 false true true; Didle].

Definition politeb {A} (c : fd_in A * fd_out A) : bool :=
  implb (fi_en (fst c)) (negb (fo_wwait (snd c))) &&
  implb (fi_ren (fst c)) (negb (fo_rwait (snd c))) &&
  implb (fi_commit (fst c)) (negb (fi_discard (fst c))).
Lemma politeb_ok {A} (c : fd_in A * fd_out A) : politeb c = true -> fd_polite c.
Proof.
  unfold politeb, fd_polite.
  destruct (fi_en _), (fi_ren _), (fi_commit _), (fi_discard _), (fo_wwait _), (fo_rwait _); simpl; intros H; try discriminate;
    repeat split; intros; congruence.
Qed.
Lemma all_polite {A} (t : list (fd_in A * fd_out A)) :
  forallb politeb t = true -> forall c, In c t -> fd_polite c.
Proof. intros H c Hc. rewrite forallb_forall in H. apply politeb_ok. auto. Qed.
Definition nrdb {A} (c : fd_in A * fd_out A) : bool := implb (fi_discard (fst c)) (negb (fi_ren (fst c))).
Lemma all_nrd {A} (t : list (fd_in A * fd_out A)) :
  forallb nrdb t = true -> forall c, In c t -> no_read_on_discard c.
Proof.
  intros H c Hc. rewrite forallb_forall in H. specialize (H c Hc). unfold nrdb in H. unfold no_read_on_discard.
  destruct (fi_discard _), (fi_ren _); simpl in *; congruence.
Qed.

Lemma c19 :
  forall (A : Type) (DEPTH : nat) (m0 : nat -> A) (d0 : A) (is : list (fd_in A)),
    0 < DEPTH ->
    let t := trace (fd_step DEPTH) (fd_init DEPTH m0 d0) is in
    (forall c, In c t -> fd_polite c /\ no_read_on_discard c) -> fd_law DEPTH t.
Proof. intros. apply fd_law_holds; assumption. Qed.

Definition stuck (s : fd_st nat) : Prop :=
  d_wr s = 0 /\ d_wrt s = 0 /\ d_rd s = 0 /\ d_loop s = false /\ d_loopt s = true.

Lemma stuck_step s i : stuck s -> fi_discard i = false ->
  (fi_en i = true -> fo_wwait (snd (fd_step 2 s i)) = false) ->
  fo_wwait (snd (fd_step 2 s i)) = true /\ fo_rwait (snd (fd_step 2 s i)) = true /\ stuck (fst (fd_step 2 s i)).
Proof.
  intros (E1 & E2 & E3 & E4 & E5) Hd He.
  assert (fo_wwait (snd (fd_step 2 s i)) = true) as Ew by (simpl; rewrite E2, E3, E5; reflexivity).
  assert (fi_en i = false) as En by (destruct (fi_en i); [rewrite He in Ew by reflexivity; discriminate|reflexivity]).
  split; [exact Ew|]. split; [simpl; rewrite E1, E3, E4; reflexivity|].
  unfold stuck, fd_step. cbn [fst d_wr d_wrt d_rd d_loop d_loopt].
  rewrite Hd, En, E1, E2, E3, E4, E5. destruct (fi_ren i); simpl; auto.
Qed.

Lemma c19_lock :
  exists is : list (fd_in nat),
    (let t := trace (fd_step 2) (fd_init 2 (fun _ => 0) 0) is in
     (forall c, In c t -> fd_polite c) /\ readable t = 0 /\ in_flight t = []) /\
    forall js c, In c (skipn (length is) (trace (fd_step 2) (fd_init 2 (fun _ => 0) 0) (is ++ js))) ->
      (forall c', In c' (trace (fd_step 2) (fd_init 2 (fun _ => 0) 0) (is ++ js)) -> fd_polite c') ->
      (forall j, In j js -> fi_discard j = false) ->
      fo_wwait (snd c) = true /\ fo_rwait (snd c) = true.
Proof.
  exists (firstn 4 c19_bad). split.
  - cbv zeta. split; [apply all_polite; vm_compute; reflexivity|]. split; vm_compute; reflexivity.
  - intros js c. rewrite trace_app.
    set (s := final (fd_step 2) _ (firstn 4 c19_bad)).
    assert (stuck s) as Hs by (unfold s; vm_compute; repeat split).
    assert (length (firstn 4 c19_bad) = length (trace (fd_step 2) (fd_init 2 (fun _ => 0) 0) (firstn 4 c19_bad))) as ->
      by (symmetry; apply trace_length).
    rewrite skipn_app, skipn_all, Nat.sub_diag. cbn [app skipn].
    set (t0 := trace _ _ (firstn 4 c19_bad)).
    intros Hc Hp. assert (forall c', In c' (trace (fd_step 2) s js) -> fd_polite c') as Hp'
      by (intros c' H'; apply Hp; apply in_or_app; auto).
    clear Hp t0. clearbody s. revert s Hs Hc Hp'. induction js as [|j js IH]; intros s Hs Hc Hp Hd; [destruct Hc|].
    rewrite trace_cons in Hc, Hp.
    destruct (stuck_step s j Hs) as (H1 & H2 & H3); [apply Hd; left; reflexivity| |].
    + intros He. destruct (Hp _ (or_introl eq_refl)) as [P _]. exact (P He).
    + destruct Hc as [<-|Hc]; [auto|].
      apply (IH (fst (fd_step 2 s j))); auto.
      * intros c' Hc'. apply Hp. right. exact Hc'.
      * intros j' Hj'. apply Hd. right. exact Hj'.
Qed.

Lemma c19_ref :
  exists is : list (fd_in nat),
    let t := trace (fd_step 2) (fd_init 2 (fun _ => 0) 0) is in
    (forall c, In c t -> fd_polite c) /\ ~ fd_law 2 t.
Proof.
  exists c19_bad. cbv zeta. split; [apply all_polite; vm_compute; reflexivity|].
  match goal with |- ~ fd_law 2 ?x => let y := eval vm_compute in x in assert (x = y) as E by (vm_compute; reflexivity); rewrite E; clear E end.
  intros [_ H].
  match type of H with forall t1 c t2, ?t = _ -> _ =>
    destruct (H (firstn 4 t) (nth 4 t (Didle, mk_fdout false false 0 0 0)) [] eq_refl) as [[Hw _] _] end.
  specialize (Hw eq_refl). discriminate Hw.
Qed.

Lemma c19_space :
  exists (is : list (fd_in nat)) (i : fd_in nat),
    let s0 := fd_init 2 (fun _ => 0) 0 in
    let t := trace (fd_step 2) s0 is in
    (forall c, In c t -> fd_polite c /\ no_read_on_discard c) /\
    readable t + length (in_flight t) = 2 /\
    fo_space (snd (fd_step 2 (final (fd_step 2) s0 is) i)) = 2.
Proof.
  exists [Dw 1 true; Dw 2 true], Didle. cbv zeta. split; [|split; vm_compute; reflexivity].
  intros c Hc. split.
  - revert c Hc. apply all_polite. vm_compute. reflexivity.
  - revert c Hc. apply all_nrd. vm_compute. reflexivity.
Qed.
