From Verif Require Import Base BaseFacts FifoModel FifoDropModel FifoDropSpec FifoDropPropsAux AfdModel AfdSpec.

Section P.
  Context {A : Type}.
  Local Notation word := (A * bool)%type.
  Variables (x : word) (D : nat) (m0 : nat -> word) (d0 : word).
  (** the fifo inside *)
  Fixpoint proj (s : afs A) (ins : list (afi A)) : list (fd_in word) := match ins with [] => [] | i :: l => fifo_in x s i :: proj (fst (af_step x D s i)) l end.
  Lemma proj_snoc : forall ins s i, proj s (ins ++ [i]) = proj s ins ++ [fifo_in x (final (af_step x D) s ins) i].
  Proof. induction ins as [|j ins IH]; intros s i; [reflexivity|]. cbn [app proj]. rewrite IH, final_cons. reflexivity. Qed.
  Lemma sent_app : forall (a b : list (afi A * afo A)), sent (a ++ b) = sent a ++ sent b.
  Proof. induction a as [|c a IH]; intros b; [reflexivity|]. cbn [app sent]. rewrite IH. destruct (fo_out (snd c)); reflexivity. Qed.
  Lemma got_app : forall (a b : list (fd_in word * fd_out word)), fd_got (a ++ b) = fd_got a ++ fd_got b.
  Proof. induction a as [|c a IH]; intros b; [reflexivity|]. cbn [app fd_got]. rewrite IH. destruct (fd_racc c); reflexivity. Qed.
  Lemma inside : forall ins, let s := final (af_step x D) (af_init D m0 d0) ins in let t := trace (af_step x D) (af_init D m0 d0) ins in
    let u := trace (fd_step D) (fd_init D m0 d0) (proj (af_init D m0 d0) ins) in
    Forall calm t ->
    a_f s = final (fd_step D) (fd_init D m0 d0) (proj (af_init D m0 d0) ins) /\ fold_left tx_step u ([], []) = keep t /\
    fd_got u = sent t ++ (if a_vld s then [d_out (a_f s)] else []) /\ (forall c, In c u -> fd_polite c /\ no_read_on_discard c).
  Proof.
    intros ins. cbv zeta. induction ins as [|i ins IH] using rev_ind; intros Hc.
    - cbn. repeat split; try contradiction; reflexivity.
    - rewrite trace_snoc in Hc. apply Forall_app in Hc. destruct Hc as (Hc & Hi). apply Forall_inv in Hi. destruct (IH Hc) as (E1 & E2 & E3 & E4). clear IH.
      rewrite final_snoc, trace_snoc, proj_snoc, final_snoc, trace_snoc.
      set (s := final (af_step x D) (af_init D m0 d0) ins) in *. set (t := trace (af_step x D) (af_init D m0 d0) ins) in *.
      set (u := trace (fd_step D) (fd_init D m0 d0) (proj (af_init D m0 d0) ins)) in *. rewrite <- E1. clearbody s t u.
      unfold calm in Hi. cbn [fst snd af_step fo_vld] in Hi.
      split; [reflexivity|]. split; [|split].
      + unfold keep in *. rewrite !fold_left_app, E2. cbn [fold_left]. generalize (fold_left keep_step t ([], [])). intros (dn, fl). unfold tx_step, keep_step, fd_wacc, af_step, fifo_in, fd_step. cbn [fst snd fi_discard fi_en fi_commit fi_data fo_wwait fo_in].
        fold (w_wait (a_f s)). cbn [fst snd]. destruct (f_disc i); [reflexivity|].
        destruct (f_in i) as [w|]; cbn [andb]; [|reflexivity]. destruct (w_wait (a_f s)); cbn [negb andb]; [reflexivity|]. destruct (snd w); reflexivity.
      + rewrite got_app, sent_app, E3, <- !app_assoc. f_equal. unfold af_step, fifo_in, fd_step. cbn [fd_got sent fst snd fo_out a_vld a_f d_out fi_ren fo_rwait fo_rdata fi_discard]. unfold fd_racc. cbn [fst snd fi_ren fo_rwait fo_rdata].
        fold (r_wait (a_f s)).
        assert (Er : d_loop (a_f s) || negb (d_wr (a_f s) =? d_rd (a_f s)) = negb (r_wait (a_f s))) by (unfold r_wait; destruct (d_loop (a_f s)), (d_wr (a_f s) =? d_rd (a_f s)); reflexivity).
        rewrite Er. destruct (a_vld s), (f_rd i), (r_wait (a_f s)); reflexivity.
      + intros c Hin. apply in_app_or in Hin. destruct Hin as [Hin|[<-|[]]]; [apply E4; exact Hin|].
        unfold fd_polite, no_read_on_discard, fifo_in, fd_step. cbn [fst snd fi_en fi_ren fi_commit fi_discard fo_wwait fo_rwait]. fold (w_wait (a_f s)). fold (r_wait (a_f s)).
        destruct (f_disc i).
        * destruct (Hi eq_refl) as (V & R & W). rewrite V, R. cbn [orb negb andb].
          split; [|auto]. split; [|split; [discriminate|]].
          -- destruct (w_wait (a_f s)); [rewrite andb_false_r; discriminate|reflexivity].
          -- destruct (f_in i) as [w|]; [|discriminate]. rewrite (W w eq_refl). discriminate.
        * split; [|discriminate]. split; [|split; [|reflexivity]].
          -- destruct (w_wait (a_f s)); [rewrite andb_false_r; discriminate|reflexivity].
          -- destruct (r_wait (a_f s)); [rewrite andb_false_r; discriminate|reflexivity].
  Qed.
  Lemma frames : forall ins, 0 < D -> let t := trace (af_step x D) (af_init D m0 d0) ins in Forall calm t ->
    exists rest, fst (keep t) = sent t ++ rest /\ length rest + length (snd (keep t)) <= D + 1.
  Proof.
    intros ins HD. cbv zeta. intros Hc. destruct (inside ins Hc) as (_ & E2 & E3 & E4).
    destruct (c19 _ D m0 d0 _ HD E4) as ((ins' & L1 & L2) & _). unfold committed, in_flight in *. rewrite E2, E3 in *.
    eexists. split; [rewrite L1, <- app_assoc; reflexivity|]. rewrite app_length. destruct (a_vld _); cbn [length]; lia.
  Qed.
  (** wait signals of the fifo *)
  Lemma waits : forall ins, 0 < D -> let t := trace (af_step x D) (af_init D m0 d0) ins in let s := final (af_step x D) (af_init D m0 d0) ins in Forall calm t ->
    let stored := length (fst (keep t)) - length (sent t) - (if a_vld s then 1 else 0) in
    (w_wait (a_f s) = true <-> stored + length (snd (keep t)) = D) /\ (r_wait (a_f s) = true <-> stored = 0).
  Proof.
    intros ins HD. cbv zeta. intros Hc. set (idle := mk_afi (@None word) false false).
    assert (Hc' : Forall calm (trace (af_step x D) (af_init D m0 d0) (ins ++ [idle]))).
    { rewrite trace_snoc. apply Forall_app. split; [exact Hc|]. apply Forall_cons; [|apply Forall_nil]. intros H. discriminate H. }
    destruct (inside ins Hc) as (E1 & E2 & E3 & _). destruct (inside (ins ++ [idle]) Hc') as (_ & _ & _ & E4).
    destruct (c19 _ D m0 d0 _ HD E4) as (_ & L). rewrite proj_snoc, trace_snoc in L. specialize (L _ _ [] eq_refl). destruct L as (L1 & L2 & _).
    unfold readable, committed, in_flight in L1, L2. rewrite E2, E3 in L1, L2. rewrite <- E1 in L1, L2. cbn [snd fd_step fo_wwait fo_rwait] in L1, L2. fold (w_wait (a_f (final (af_step x D) (af_init D m0 d0) ins))) in L1.
    fold (r_wait (a_f (final (af_step x D) (af_init D m0 d0) ins))) in L2. rewrite app_length in L1, L2.
    destruct (a_vld _); cbn [length] in L1, L2; rewrite ?Nat.sub_add_distr in L1, L2; rewrite ?Nat.add_0_r, ?Nat.sub_0_r in *; split; assumption.
  Qed.
  Lemma accepts : forall ins i, 0 < D -> let t := trace (af_step x D) (af_init D m0 d0) ins in let o := snd (af_step x D (final (af_step x D) (af_init D m0 d0) ins) i) in Forall calm t ->
    (fo_in o = true <-> f_in i <> None /\ length (fst (keep t)) - length (sent t) - (if fo_vld o then 1 else 0) + length (snd (keep t)) <> D).
  Proof.
    intros ins i HD. cbv zeta. intros Hc. destruct (waits ins HD Hc) as (W & _).
    set (s := final (af_step x D) (af_init D m0 d0) ins) in *. set (t := trace (af_step x D) (af_init D m0 d0) ins) in *. clearbody s t.
    unfold af_step. cbn [snd fo_in fo_vld].
    destruct (f_in i); [|split; [discriminate|intros (H & _); congruence]]. destruct (w_wait (a_f s)); cbn [negb].
    - split; [discriminate|]. intros (_ & H). exfalso. apply H. apply W. reflexivity.
    - split; [|reflexivity]. intros _. split; [discriminate|]. intros H. apply W in H. discriminate H.
  Qed.
  Lemma progress : forall ins i j, 0 < D -> let step := af_step x D in let t := trace step (af_init D m0 d0) ins in let s := final step (af_init D m0 d0) ins in Forall calm t ->
    length (sent t) < length (fst (keep t)) -> fo_vld (snd (step s i)) = true \/ fo_vld (snd (step (fst (step s i)) j)) = true.
  Proof.
    intros ins i j HD. cbv zeta. intros Hc Hl. destruct (waits ins HD Hc) as (_ & R).
    set (s := final (af_step x D) (af_init D m0 d0) ins) in *. set (t := trace (af_step x D) (af_init D m0 d0) ins) in *. clearbody s t.
    unfold af_step. cbn [snd fst fo_vld a_vld].
    destruct (a_vld s); [left; reflexivity|right]. rewrite orb_true_r. destruct (r_wait (a_f s)); [|reflexivity]. exfalso. destruct R as (R & _). specialize (R eq_refl). lia.
  Qed.
End P.
(** locked *)
Definition stuck_in {A : Type} (s : afs A) : Prop := w_wait (a_f s) = true /\ r_wait (a_f s) = true.
Lemma stuck_step : forall (A : Type) x D (s : afs A) i, stuck_in s -> f_disc i = false -> stuck_in (fst (af_step x D s i)) /\ fo_in (snd (af_step x D s i)) = false.
Proof.
  intros A x D s i (H1 & H2) Hd. split.
  - unfold stuck_in, af_step, fd_step, fifo_in. cbn [fst a_f fi_en fi_ren fi_discard fi_commit]. rewrite H1, H2, Hd. cbn [negb]. rewrite !andb_false_r. cbn [andb]. split; assumption.
  - unfold af_step. cbn [snd fo_in]. rewrite H1. destruct (f_in i); reflexivity.
Qed.
Lemma stuck_run : forall (A : Type) x D js (s : afs A), stuck_in s -> Forall (fun j => f_disc j = false) js -> Forall (fun o => fo_in o = false) (outs (af_step x D) s js).
Proof.
  intros A x D. induction js as [|j js IH]; intros s H F; [rewrite outs_nil; apply Forall_nil|]. rewrite outs_cons. inversion F; subst.
  destruct (stuck_step A x D s j H) as (S1 & S2); [assumption|]. apply Forall_cons; [exact S2|]. apply IH; assumption.
Qed.
Definition bad : list (afi nat) := [mk_afi (Some (1, true)) false true; mk_afi (Some (2, true)) false true; mk_afi None true true; mk_afi None false true].
Definition bad_s := final (af_step (0, false) 2) (af_init 2 (fun _ => (0, false)) (0, false)) bad.
Lemma bad_stuck : stuck_in bad_s.
Proof. vm_compute. auto. Qed.
Lemma lock : exists ins : list (afi nat), let step := af_step (0, false) 2 in let s0 := af_init 2 (fun _ => (0, false)) (0, false) in let t := trace step s0 ins in
  keep t = (sent t, []) /\ forall js, Forall (fun j => f_disc j = false) js -> Forall (fun o => fo_in o = false) (outs step (final step s0 ins) js).
Proof. exists bad. cbv zeta. split; [vm_compute; reflexivity|]. intros js F. exact (stuck_run nat (0, false) 2 js bad_s bad_stuck F). Qed.
