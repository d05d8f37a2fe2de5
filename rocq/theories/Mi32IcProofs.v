From Coq Require Import Lia.
From Verif Require Import Base BaseFacts FifoModel FifoSpec FifoProofs HsFifoProofs Mi32IcModel Mi32IcSpec.

Lemma log2ceil_pred k : 1 <= k -> log2ceil (2 ^ k - 1) = k.
Proof.
  intros Hk. unfold log2ceil. destruct (Nat.eq_dec k 1) as [->|Hn]; [reflexivity|].
  assert (4 <= 2 ^ k). { change 4 with (2 ^ 2). apply Nat.pow_le_mono_r; lia. }
  destruct (Nat.leb_spec (2 ^ k - 1) 1); [lia|].
  assert (E : 2 ^ k = 2 * 2 ^ (k - 1)). { rewrite <- Nat.pow_succ_r'. f_equal. lia. }
  assert (2 <= 2 ^ (k - 1)). { change 2 with (2 ^ 1) at 1. apply Nat.pow_le_mono_r; lia. }
  apply Nat.log2_up_unique; [lia|]. replace (Nat.pred k) with (k - 1) by lia. lia.
Qed.

Lemma cs_range s a k : 1 <= k -> snd s = 2 ^ k -> fst s mod snd s = 0 -> (ic_cs a s = true <-> in_slave s a).
Proof.
  intros Hk Hs Hm. unfold ic_cs, in_slave. rewrite Hs, log2ceil_pred by exact Hk. rewrite Hs in Hm. rewrite Nat.eqb_eq.
  pose proof (pow2_pos k). pose proof (Nat.div_mod (fst s) (2 ^ k) ltac:(lia)) as E1. pose proof (Nat.div_mod a (2 ^ k) ltac:(lia)) as E2.
  pose proof (Nat.mod_upper_bound a (2 ^ k) ltac:(lia)) as B. rewrite Hm in E1.
  set (x := fst s / 2 ^ k) in *. set (y := a / 2 ^ k) in *. set (m := a mod 2 ^ k) in *. set (P := 2 ^ k) in *. clearbody x y m P. split.
  - intros ->. nia.
  - intros [A C]. nia.
Qed.

Section R.
  Context {D : Type}.
  Variables (SLAVES : list (nat * nat)) (DEPTH : nat).
  Hypothesis HS : slaves_ok SLAVES.
  Notation step := (ic_step (D := D) SLAVES DEPTH).

  Lemma sel_range i j : ic_sel SLAVES i j = true <-> exists s, nth_error SLAVES j = Some s /\ in_slave s (ii_addr (D := D) i).
  Proof.
    unfold ic_sel. destruct (nth_error SLAVES j) as [s|] eqn:E.
    - destruct (proj1 HS s (nth_error_In _ _ E)) as [(k & Hk & Hs) Hm]. rewrite (cs_range s _ k Hk Hs Hm). split.
      + intros H. exists s. split; [reflexivity|exact H].
      + intros (s' & E' & H). injection E' as <-. exact H.
    - split; [discriminate|]. intros (s & E' & _). discriminate E'.
  Qed.
  Lemma sel_uniq (i : ic_in D) j j' : ic_sel SLAVES i j = true -> ic_sel SLAVES i j' = true -> j = j'.
  Proof.
    intros A B. apply sel_range in A, B. destruct A as (s & A1 & A2), B as (q & B1 & B2). exact (proj2 HS j j' s q _ A1 B1 A2 B2).
  Qed.

  Lemma first_spec (i : ic_in D) l : forall k, 
    match ic_first l k i with
    | Some j => k <= j /\ ii_ardy i j = true /\ exists s, nth_error l (j - k) = Some s /\ ic_cs (ii_addr i) s = true
    | None => forall j s, nth_error l j = Some s -> ic_cs (ii_addr i) s && ii_ardy i (k + j) = false
    end.
  Proof.
    induction l as [|s l IH]; intros k; cbn [ic_first].
    - intros j s E. destruct j; discriminate.
    - destruct (ic_cs (ii_addr i) s && ii_ardy i k) eqn:E.
      + apply andb_prop in E. destruct E as [E1 E2]. split; [lia|]. split; [exact E2|]. exists s. rewrite Nat.sub_diag. split; [reflexivity|exact E1].
      + specialize (IH (k + 1)). destruct (ic_first l (k + 1) i) as [j|].
        * destruct IH as (A & B & q & C & F). split; [lia|]. split; [exact B|]. exists q. split; [|exact F].
          replace (j - k) with (S (j - (k + 1))) by lia. exact C.
        * intros [|j] q Eq; cbn in Eq.
          -- injection Eq as <-. rewrite Nat.add_0_r. exact E.
          -- replace (k + S j) with (k + 1 + j) by lia. exact (IH j q Eq).
  Qed.
  Lemma first_some (i : ic_in D) j : ic_first SLAVES 0 i = Some j <-> ic_sel SLAVES i j = true /\ ii_ardy i j = true.
  Proof.
    pose proof (first_spec i SLAVES 0) as F. split.
    - intros E. rewrite E in F. destruct F as (_ & A & s & B & C). rewrite Nat.sub_0_r in B. split; [|exact A]. unfold ic_sel. rewrite B. exact C.
    - intros [A B]. destruct (ic_first SLAVES 0 i) as [j'|].
      + destruct F as (_ & A' & s & B' & C'). rewrite Nat.sub_0_r in B'. f_equal. apply (sel_uniq i); [|exact A]. unfold ic_sel. rewrite B'. exact C'.
      + exfalso. unfold ic_sel in A. destruct (nth_error SLAVES j) as [s|] eqn:E; [|discriminate]. specialize (F j s E). rewrite A in F. cbn in F. congruence.
  Qed.

  Lemma step_routed s i : routed SLAVES (i, snd (step s i)).
  Proof.
    unfold routed, s_reads, s_writes, ic_step. cbn [fst snd io_rd io_wr io_ardy].
    set (rdy := negb (f_wwait (hf (ic_f s)))).
    assert (X : forall e : bool, (e = true -> ii_rd i || ii_wr i = true) ->
      (e && (match ic_first SLAVES 0 i with Some _ => true | None => false end && rdy && (ii_rd i || ii_wr i)) = true <->
       exists j, e && ic_sel SLAVES i j && rdy = true /\ ii_ardy i j = true)).
    { intros e He. split.
      - intros H. destruct e; [|discriminate]. rewrite (He eq_refl), andb_true_r in H. cbn [andb] in H. apply andb_prop in H. destruct H as [H1 H2].
        destruct (ic_first SLAVES 0 i) as [j|] eqn:E; [|discriminate]. apply first_some in E. destruct E as [E1 E2]. exists j. rewrite E1, H2. split; [reflexivity|exact E2].
      - intros (j & H1 & H2). apply andb_prop in H1. destruct H1 as [H1 H3]. apply andb_prop in H1. destruct H1 as [H1 H4].
        rewrite (proj2 (first_some i j) (conj H4 H2)), H1, H3, (He H1). reflexivity. }
    split; [|split; [|split]].
    - intros j H. apply andb_prop in H. destruct H as [H _]. apply andb_prop in H. destruct H as [H1 H2]. split; [exact H1|]. apply sel_range. exact H2.
    - intros j H. apply andb_prop in H. destruct H as [H _]. apply andb_prop in H. destruct H as [H1 H2]. split; [exact H1|]. apply sel_range. exact H2.
    - apply X. intros ->. reflexivity.
    - apply X. intros ->. apply orb_true_r.
  Qed.
  Lemma all_routed s is : Forall (routed SLAVES) (trace step s is).
  Proof. revert s. induction is as [|i is IH]; intros s; [constructor|]. rewrite trace_cons. constructor; [apply step_routed|apply IH]. Qed.

  (** the read taken in a cycle *)
  Definition taken (s : ic_st D) (i : ic_in D) : option nat :=
    if ii_rd i && negb (f_wwait (hf (ic_f s))) then ic_first SLAVES 0 i else None.
  Lemma taken_spec s i : match taken s i with Some j => s_reads (i, snd (step s i)) j | None => forall j, ~ s_reads (i, snd (step s i)) j end.
  Proof.
    unfold taken, s_reads, ic_step. cbn [fst snd io_rd]. set (rdy := negb (f_wwait (hf (ic_f s)))).
    destruct (ii_rd i); cbn [andb]; [|intros j [H _]; discriminate].
    destruct rdy; [|intros j [H _]; rewrite andb_false_r in H; discriminate]. rewrite ?andb_true_r.
    destruct (ic_first SLAVES 0 i) as [j|] eqn:E.
    - apply first_some in E. rewrite andb_true_r. exact E.
    - intros j [H1 H2]. rewrite andb_true_r in H1. pose proof (proj2 (first_some i j) (conj H1 H2)). congruence.
  Qed.
  Lemma taken_uniq s i p' : (match p' with Some j => s_reads (i, snd (step s i)) j | None => forall j, ~ s_reads (i, snd (step s i)) j end) -> p' = taken s i.
  Proof.
    intros H. pose proof (taken_spec s i) as T. destruct p' as [j|], (taken s i) as [j'|].
    - f_equal. unfold s_reads, ic_step in *. cbn [fst snd io_rd] in *. destruct H as [H _], T as [T _].
      apply andb_prop in H, T. destruct H as [H _], T as [T _]. apply andb_prop in H, T. destruct H as [_ H], T as [_ T]. exact (sel_uniq i j j' H T).
    - destruct (T j H).
    - destruct (H j' T).
    - reflexivity.
  Qed.
  Lemma taken_lt s i j : taken s i = Some j -> j < length SLAVES.
  Proof.
    unfold taken. destruct (_ && _); [|discriminate]. intros E. apply first_some in E. destruct E as [E _]. unfold ic_sel in E.
    destruct (nth_error SLAVES j) eqn:F; [|discriminate]. apply nth_error_Some. congruence.
  Qed.

  Hypothesis HD : 2 <= DEPTH.
  Definition ol {A} (x : option A) : list A := match x with Some a => [a] | None => [] end.
  (** [p] = the read taken in the previous cycle, [q] = the one before, with its data *)
  Record Inv (s : ic_st D) (p : option nat) (q : option D) : Prop := mk_inv {
    v_rep : Rep (DEPTH - 1) (hf (ic_f s)) (ol p);
    v_p : forall j, p = Some j -> j < length SLAVES;
    v_q : match q with
          | Some d => ovld (ic_f s) = true /\ dreg (hf (ic_f s)) < length SLAVES /\ ic_tmp s (dreg (hf (ic_f s))) = (true, d)
          | None => ovld (ic_f s) = false /\ forall j, j < length SLAVES -> fst (ic_tmp s j) = false
          end }.

  Lemma inv_step s p q i : Inv s p q -> (forall j, j < length SLAVES -> (fst (ii_d i j) = true <-> p = Some j)) ->
    Inv (fst (step s i)) (taken s i) (match p with Some j => Some (snd (ii_d i j)) | None => None end).
  Proof.
    intros [R Hp Hq] Hl. assert (D0 : 0 < DEPTH - 1) by lia.
    set (pop := existsb (fun j => fst (ic_tmp s j)) (seq 0 (length SLAVES))).
    assert (Epop : pop || negb (ovld (ic_f s)) = true).
    { destruct q as [d|].
      - destruct Hq as (_ & A & B). apply orb_true_iff. left. apply existsb_exists. exists (dreg (hf (ic_f s))).
        split; [apply in_seq; lia|rewrite B; reflexivity].
      - destruct Hq as [-> _]. apply orb_true_r. }
    set (fi := mk_fin ((match ic_first SLAVES 0 i with Some _ => true | None => false end && ii_rd i) && negb (f_wwait (hf (ic_f s))))
                      (match ic_first SLAVES 0 i with Some j => j | None => 0 end) (negb (f_rwait (hf (ic_f s))))).
    assert (Ef : ic_f (fst (step s i)) = mk_hsf (fst (fifo_step (DEPTH - 1) (hf (ic_f s)) fi)) (negb (f_rwait (hf (ic_f s))))).
    { unfold ic_step, hsf_step, inner_depth. cbn [fst ic_f i_vld i_data i_rd]. fold pop. rewrite Epop. cbn [andb]. fold fi.
      destruct (fifo_step (DEPTH - 1) (hf (ic_f s)) fi). reflexivity. }
    assert (Et : ic_tmp (fst (step s i)) = ii_d i) by reflexivity.
    pose proof (rep_rwait _ D0 _ _ R) as Erw. pose proof (rep_wwait _ D0 _ _ R) as Eww. 
    assert (Hw : w_en fi = true -> length (ol p) < DEPTH - 1).
    { unfold fi. cbn [w_en]. rewrite Eww. intros H. apply andb_prop in H. destruct H as [_ H]. apply negb_true_iff, Nat.eqb_neq in H.
      pose proof (rep_len _ _ _ R). lia. }
    destruct (rep_step _ D0 _ _ fi R Hw) as [R' Hr].
    assert (Ewn : w_en fi = match taken s i with Some _ => true | None => false end).
    { unfold fi, taken. cbn [w_en]. destruct (ic_first SLAVES 0 i), (ii_rd i), (f_wwait (hf (ic_f s))); reflexivity. }
    assert (Ewd : forall j, taken s i = Some j -> w_data fi = j).
    { intros j H. unfold taken in H. destruct (ii_rd i && negb (f_wwait (hf (ic_f s)))); [|discriminate H]. unfold fi. cbn [w_data]. rewrite H. reflexivity. }
    constructor.
    - rewrite Ef. cbn [hf]. replace (ol (taken s i)) with (q_next (ol p) (w_en fi) (r_en fi && negb (length (ol p) =? 0)) (w_data fi)); [exact R'|].
      unfold q_next. rewrite Ewn. assert (Ern : r_en fi = negb (length (ol p) =? 0)) by (unfold fi; cbn [r_en]; rewrite Erw; reflexivity).
      rewrite Ern. destruct p; cbn [ol length negb andb tl Nat.eqb app];
        (destruct (taken s i) eqn:E; cbn [ol app]; [rewrite (Ewd _ eq_refl)|]; reflexivity).
    - intros j. apply taken_lt.
    - rewrite Ef, Et. cbn [ovld hf]. rewrite Erw. destruct p as [j|]; cbn [ol length Nat.eqb negb] in *.
      + assert (Ed : dreg (fst (fifo_step (DEPTH - 1) (hf (ic_f s)) fi)) = j).
        { destruct Hr as (x & q' & Eq & Ex); [unfold fi; cbn [r_en]; rewrite Erw; reflexivity|]. injection Eq as <- <-. exact Ex. }
        rewrite Ed. split; [reflexivity|]. split; [apply Hp; reflexivity|]. 
        destruct (ii_d i j) as [v d] eqn:E. pose proof (proj2 (Hl j (Hp j eq_refl)) eq_refl) as V. rewrite E in V. cbn in V. subst v. reflexivity.
      + split; [reflexivity|]. intros j Hj. destruct (fst (ii_d i j)) eqn:E; [|reflexivity]. pose proof (proj1 (Hl j Hj) E) as X. discriminate X.
  Qed.

  Lemma data_run is : forall s p q, Inv s p q -> lat1 (length SLAVES) p (trace step s is) -> data_law p q (trace step s is).
  Proof.
    induction is as [|i is IH]; intros s p q V L; [exact I|]. rewrite trace_cons in *. cbn [lat1 data_law fst snd] in *.
    destruct L as [L1 L2]. split.
    - destruct V as [_ _ Vq]. unfold ic_step. cbn [snd io_drdy io_drd]. destruct q as [d|].
      + destruct Vq as (A & _ & B). rewrite B. split; [exact A|reflexivity].
      + apply Vq.
    - intros p' Hp'. specialize (L2 p' Hp'). apply taken_uniq in Hp'. subst p'. apply IH; [|exact L2]. exact (inv_step s p q i V L1).
  Qed.
  Lemma data_run0 m0 d0 x is : lat1 (length SLAVES) None (trace step (ic_init DEPTH m0 d0 x) is) ->
    data_law None None (trace step (ic_init DEPTH m0 d0 x) is).
  Proof.
    apply data_run. assert (E : hsf_init DEPTH [] m0 d0 = mk_hsf (fifo_init (DEPTH - 1) [] m0 d0) false).
    { unfold hsf_init, inner_depth. cbn [length]. destruct (Nat.eqb_spec 0 DEPTH); [lia|reflexivity]. }
    unfold ic_init. rewrite E. constructor; cbn [ic_f hf ovld ic_tmp].
    - apply rep_init; [lia|]. left. cbn. lia.
    - discriminate.
    - split; [reflexivity|]. intros; reflexivity.
  Qed.
End R.

Definition ex_cfg : list (nat * nat) := [(0, 4); (8, 4)].
Lemma ex_cfg_ok : slaves_ok ex_cfg.
Proof.
  split.
  - intros s H. repeat (destruct H as [<-|H]; [split; [exists 2; split; [lia|reflexivity]|reflexivity]|]). destruct H.
  - intros i j s q a Hi Hj A B. unfold in_slave in *. destruct i as [|[|[|i]]], j as [|[|[|j]]]; cbn in *; try discriminate; try reflexivity;
      injection Hi as <-; injection Hj as <-; cbn in *; lia.
Qed.
Definition noD : nat -> bool * nat := fun _ => (false, 0).
Definition rd_in (a : nat) (d : nat -> bool * nat) : ic_in nat := mk_ici true false a (fun _ => true) d.
Definition no_in (d : nat -> bool * nat) : ic_in nat := mk_ici false false 0 (fun _ => true) d.
Definition one (j d : nat) : nat -> bool * nat := fun k => (k =? j, d).
(** reads of both slaves, answered in the next cycle *)
Definition ex_ic : list (ic_in nat) := [rd_in 1 noD; rd_in 9 (one 0 70); no_in (one 1 71); no_in noD; no_in noD].
(** one read, answered in the cycle after the next *)
Definition ex_ic2 : list (ic_in nat) := [rd_in 1 noD; no_in noD; no_in (one 0 70); no_in noD; no_in noD].

Lemma ex_lat1 : lat1 2 None (trace (ic_step ex_cfg 4) (ic_init 4 (fun _ => 0) 0 (fun _ => 0)) ex_ic).
Proof.
  set (s0 := ic_init 4 (fun _ => 0) 0 (fun _ => 0)).
  assert (G : forall is s p, 
    (fix ok (s : ic_st nat) (p : option nat) (is : list (ic_in nat)) : Prop :=
      match is with [] => True | i :: is' => (forall j, j < 2 -> (fst (ii_d i j) = true <-> p = Some j)) /\
        ok (fst (ic_step ex_cfg 4 s i)) (taken ex_cfg s i) is' end) s p is ->
    lat1 2 p (trace (ic_step ex_cfg 4) s is)).
  { induction is as [|i is IH]; intros s p H; [exact I|]. rewrite trace_cons. cbn [lat1 fst snd]. destruct H as [H1 H2]. split; [exact H1|].
    intros p' Hp'. rewrite (taken_uniq ex_cfg 4 ex_cfg_ok s i p' Hp'). apply IH. exact H2. }
  apply G. unfold ex_ic. 
  split; [intros [|[|j]] Hj; cbn; split; intros; try discriminate; lia|].
  split; [intros [|[|j]] Hj; cbn; split; intros; try discriminate; try reflexivity; lia|].
  split; [intros [|[|j]] Hj; cbn; split; intros; try discriminate; try reflexivity; lia|].
  split; [intros [|[|j]] Hj; cbn; split; intros; try discriminate; try reflexivity; lia|].
  split; [intros [|[|j]] Hj; cbn; split; intros; try discriminate; try reflexivity; lia|]. exact I.
Qed.
