From Verif Require Import Base BaseFacts StreamSpec StreamFacts FifoModel FifoSpec FifoProofs HsFifoProofs.

Lemma c01 :
  forall (A : Type) (DEPTH : nat) (m0 : nat -> A) (d0 : A) (is : list (fifo_in A)),
    0 < DEPTH ->
    let t := trace (fifo_step DEPTH) (fifo_init DEPTH [] m0 d0) is in
    polite t -> fifo_law DEPTH [] t.
Proof. intros A D m0 d0 is HD t. apply fifo_law_holds; simpl; auto. Qed.

Definition W (x : nat) := mk_fin true x false.
Definition R := mk_fin false 0 true.
Definition WR (x : nat) := mk_fin true x true.
Definition c01_hist := [W 1; W 2; R; WR 3; R; W 4; mk_fin false 0 false].

Definition c02_hist := [W 1; W 2; R; W 3; mk_fin true 4 true; R; R].

Lemma polite_b {A} (t : list (fifo_in A * fifo_out A)) :
  forallb (fun c => implb (w_en (fst c)) (negb (w_wait (snd c)))) t = true -> polite t.
Proof.
  intros H c Hc He. rewrite forallb_forall in H. specialize (H c Hc). rewrite He in H.
  destruct (w_wait (snd c)); [discriminate|reflexivity].
Qed.

Lemma c03 :
  forall (A : Type) (DEPTH : nat) (init : list A) (m0 : nat -> A) (d0 : A) (is : list (fifo_in A)),
    0 < DEPTH -> length init < DEPTH \/ (length init = DEPTH /\ DEPTH = 1) ->
    let t := trace (fifo_step DEPTH) (fifo_init DEPTH init m0 d0) is in
    polite t -> fifo_law DEPTH init t.
Proof. intros. apply fifo_law_holds; auto. Qed.

Definition c03_hist := [R; W 1; R; R].
Definition c03_bad_hist := [W 1; R; R; R].
Definition Hw (x : nat) := mk_hin true x false.
Definition Hr := mk_hin false 0 true.
Definition hs_hist := [Hw 1; Hw 2; Hw 3; Hr; Hr; mk_hin false 0 false].
Definition c03_hs_hist := [Hw 1; Hr; Hr; Hr; Hr].

Lemma c03_hs :
  forall (A : Type) (DEPTH : nat) (init : list A) (m0 : nat -> A) (d0 : A) (is : list (hsf_in A)),
    2 <= DEPTH -> length init < DEPTH - 1 \/ (DEPTH = 2 /\ length init <= DEPTH) ->
    queue_law DEPTH init (map hsf_obs (trace (hsf_step DEPTH) (hsf_init DEPTH init m0 d0) is)).
Proof.
  intros A D init m0 d0 is HD Hi.
  destruct (hs_run D HD _ _ is (hrep_init D HD init m0 d0 Hi)) as [q [R' E]].
  exists q. split; [exact E|exact (hrep_len _ HD _ _ R')].
Qed.

Lemma c04 :
  forall (A : Type) (DEPTH : nat) (m0 : nat -> A) (d0 : A) (is : list (hsf_in A)),
    2 <= DEPTH ->
    let t := map hsf_obs (trace (hsf_step DEPTH) (hsf_init DEPTH [] m0 d0) is) in
    queue_law DEPTH [] t /\ out_stable t.
Proof.
  intros A D m0 d0 is HD t.
  assert (init_ok D (@nil A)) as Hi by (left; simpl; lia).
  split.
  - apply c03_hs; [assumption|exact Hi].
  - exact (hs_stable D HD _ _ is (hrep_init D HD [] m0 d0 Hi)).
Qed.

Lemma c04_counts :
  forall (A : Type) (DEPTH : nat) (m0 : nat -> A) (d0 : A) (is : list (hsf_in A)) (i : hsf_in A),
    2 <= DEPTH ->
    let s0 := hsf_init DEPTH [] m0 d0 in
    let n := stored [] (map hsf_obs (trace (hsf_step DEPTH) s0 is)) in
    let o := snd (hsf_step DEPTH (final (hsf_step DEPTH) s0 is) i) in
    h_size o = n /\ h_space o = DEPTH - n /\ n <= DEPTH /\
    (n < DEPTH - 1 -> h_rd o = true) /\ (n = DEPTH -> h_rd o = false).
Proof.
  intros A D m0 d0 is i HD s0 n o.
  assert (init_ok D (@nil A)) as Hi by (left; simpl; lia).
  destruct (hs_run D HD _ _ is (hrep_init D HD [] m0 d0 Hi)) as [q [R' E]].
  fold s0 in R', E.
  assert (n = length q) as En.
  { unfold n, stored. apply (f_equal (@length A)) in E. unfold obs_trace in E.
    rewrite !app_length in E. simpl in *. lia. }
  pose proof (hrep_len _ HD _ _ R') as Hl.
  destruct (hrep_step D HD _ q i R') as (_ & _ & _ & H1 & H2 & H3 & _).
  fold o in H1, H2, H3. rewrite En.
  repeat split; try assumption.
  intros Hf. destruct R' as [qi [Rq Eq]].
  unfold o. rewrite step_out. cbn.
  rewrite (rep_wwait (D - 1) ltac:(lia) _ _ Rq).
  pose proof (rep_len _ _ _ Rq).
  destruct (Nat.eqb_spec (length qi) (D - 1)); [reflexivity|].
  subst q. destruct (ovld _); simpl in Hf; lia.
Qed.

Lemma c05 :
  forall (A : Type) (DEPTH : nat) (m0 : nat -> A) (d0 : A) (is js : list (hsf_in A)),
    2 <= DEPTH -> DEPTH + 1 <= length js -> (forall j, In j js -> i_rd j = true) ->
    let s0 := hsf_init DEPTH [] m0 d0 in
    let t := map hsf_obs (trace (hsf_step DEPTH) s0 is) in
    let t' := map hsf_obs (trace (hsf_step DEPTH) s0 (is ++ js)) in
    exists more, delivered t' = accepted t ++ more.
Proof.
  intros A D m0 d0 is js HD Hlen Hrd s0 t t'.
  assert (init_ok D (@nil A)) as Hi by (left; simpl; lia).
  destruct (hs_run D HD _ _ is (hrep_init D HD [] m0 d0 Hi)) as [q [R' E]].
  fold s0 in R', E. simpl in E.
  pose proof (hrep_len _ HD _ _ R') as Hl.
  destruct (hs_drain D HD _ q q [] js R') as [more Em].
  - rewrite app_nil_r. reflexivity.
  - assumption.
  - destruct (ovld _); [lia|]. destruct q; simpl in *; lia.
  - exists more. unfold t', t. rewrite trace_app, map_app, delivered_app.
    unfold obs_trace in *. rewrite Em, app_assoc, <- E. reflexivity.
Qed.

Lemma c02 :
  exists is : list (fifo_in nat),
    let t := trace (fifo_step 2) (fifo_init 2 [] (fun _ => 0) 0) is in
    ~ fifo_law 2 [] t /\ written t = [1; 2; 3] /\ got t = [1; 2; 3; 2].
Proof.
  exists c02_hist. cbv zeta.
  assert (written (trace (fifo_step 2) (fifo_init 2 [] (fun _ => 0) 0) c02_hist) = [1; 2; 3]) as E1
    by (vm_compute; reflexivity).
  assert (got (trace (fifo_step 2) (fifo_init 2 [] (fun _ => 0) 0) c02_hist) = [1; 2; 3; 2]) as E2
    by (vm_compute; reflexivity).
  split; [|split; assumption].
  intros [[inside [E _]] _]. rewrite E1, E2 in E. discriminate.
Qed.

Lemma c03_bad :
  exists is : list (fifo_in nat),
    let t := trace (fifo_step 3) (fifo_init 3 [7; 8; 9] (fun _ => 0) 0) is in
    polite t /\ ~ fifo_law 3 [7; 8; 9] t /\
    written t = [1] /\ got t = [7; 8; 1].
Proof.
  exists c03_bad_hist. cbv zeta.
  assert (written (trace (fifo_step 3) (fifo_init 3 [7; 8; 9] (fun _ => 0) 0) c03_bad_hist) = [1]) as E1
    by (vm_compute; reflexivity).
  assert (got (trace (fifo_step 3) (fifo_init 3 [7; 8; 9] (fun _ => 0) 0) c03_bad_hist) = [7; 8; 1]) as E2
    by (vm_compute; reflexivity).
  split; [apply polite_b; vm_compute; reflexivity|].
  split; [|split; assumption].
  intros [[inside [E _]] _]. rewrite E1, E2 in E. discriminate.
Qed.

Lemma c03_hs_bad :
  exists is : list (hsf_in nat),
    let t := map hsf_obs (trace (hsf_step 4) (hsf_init 4 [6; 7; 8; 9] (fun _ => 0) 0) is) in
    accepted t = [1] /\ delivered t = [6; 7; 8; 1] /\ ~ queue_law 4 [6; 7; 8; 9] t.
Proof.
  exists c03_hs_hist. cbv zeta.
  split; [vm_compute; reflexivity|]. split; [vm_compute; reflexivity|].
  intros [inside [E _]]. vm_compute in E. discriminate.
Qed.
