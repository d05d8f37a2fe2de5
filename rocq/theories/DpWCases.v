(** Concrete runs for the statements in DpWProps.v. *)
From Verif Require Import Base BaseFacts FifoModel DpModel DpSpec DpProofs DpRSpec DpWModel DpWSpec DpWProofs DpCases.

Notation nword := (list (nat * bool)).
Definition req_eqb (p q : dreq) : bool := (q_addr p =? q_addr q) && (q_len p =? q_len q) && (q_rem p =? q_rem q).
Lemma req_eqb_ok p q : req_eqb p q = true -> p = q.
Proof. unfold req_eqb. rewrite !andb_true_iff, !Nat.eqb_eq. destruct p, q. cbn. intros [[-> ->] ->]. reflexivity. Qed.
Fixpoint list_eqb {A} (e : A -> A -> bool) (a b : list A) : bool :=
  match a, b with [], [] => true | x :: a', y :: b' => e x y && list_eqb e a' b' | _, _ => false end.
Lemma list_eqb_ok {A} (e : A -> A -> bool) a b : (forall x y, e x y = true -> x = y) -> list_eqb e a b = true -> a = b.
Proof.
  intros He. revert b. induction a as [|x a IH]; intros [|y b] H; try discriminate; [reflexivity|]. cbn in H. apply andb_true_iff in H. destruct H as [H1 H2].
  rewrite (He _ _ H1), (IH _ H2). reflexivity.
Qed.
Definition byte_eqb (x y : nat * bool) : bool := (fst x =? fst y) && Bool.eqb (snd x) (snd y).
Lemma byte_eqb_ok x y : byte_eqb x y = true -> x = y.
Proof. unfold byte_eqb. rewrite andb_true_iff, Nat.eqb_eq. destruct x, y. cbn. intros [-> H]. apply eqb_prop in H. subst. reflexivity. Qed.
Definition word_eqb (x y : nword * bool) : bool := list_eqb byte_eqb (fst x) (fst y) && Bool.eqb (snd x) (snd y).
Lemma word_eqb_ok x y : word_eqb x y = true -> x = y.
Proof.
  unfold word_eqb. rewrite andb_true_iff. destruct x, y. cbn. intros [H1 H2]. apply eqb_prop in H2. apply (list_eqb_ok _ _ _ byte_eqb_ok) in H1. subst. reflexivity.
Qed.
Fixpoint pre_b {A} (e : A -> A -> bool) (a b : list A) : bool :=
  match a, b with [], _ => true | x :: a', y :: b' => e x y && pre_b e a' b' | _, _ => false end.
Lemma pre_b_ok {A} (e : A -> A -> bool) a b : (forall x y, e x y = true -> x = y) -> pre_b e a b = true -> exists m, b = a ++ m.
Proof.
  intros He. revert b. induction a as [|x a IH]; intros b H; [exists b; reflexivity|]. destruct b as [|y b]; [discriminate|].
  cbn in H. apply andb_true_iff in H. destruct H as [E H]. destruct (IH _ H) as [m ->]. exists m. rewrite (He _ _ E). reflexivity.
Qed.

Fixpoint wkept_b (t : list (wp_in nat * wp_out nat)) : bool :=
  match t with
  | x :: (y :: _) as t' => (negb (ui_vld (fst x) && negb (uo_rd (snd x))) || (ui_vld (fst y) && req_eqb (ui_req (fst y)) (ui_req (fst x)))) && wkept_b t'
  | _ => true
  end.
Lemma wkept_b_ok t : wkept_b t = true -> wp_kept t.
Proof.
  intros H t1 x y t2 ->. induction t1 as [|z t1 IH]; cbn [app] in H.
  - cbn [wkept_b] in H. apply andb_true_iff in H. destruct H as [H _]. intros V R. rewrite V, R in H. cbn [andb negb orb] in H.
    apply andb_true_iff in H. destruct H as [A B]. split; [exact A|]. apply req_eqb_ok, B.
  - apply IH. destruct t1 as [|z' t1]; cbn [app wkept_b] in H; apply andb_true_iff in H; apply H.
Qed.
Definition frame_b (c : dpcfg) (f : @frame nat) : bool :=
  let q := fst f in
  (length (snd f) =? q_len q + 1) && forallb (fun w => length w =? WB c) (snd f) &&
  forallb (fun b => negb (snd b)) (skipn (if q_rem q =? 0 then WB c else q_rem q) (nth (q_len q) (snd f) [])) &&
  ((q_addr q <? 2 ^ AW c) && (q_len q <=? MAXLEN c) && (q_rem q <? WB c) && (q_addr q mod AL c =? 0)) &&
  ((AL c =? 1) || (q_addr q mod CB c =? 0)) && (2 ^ LW c <? MAXLEN c + 1) && ((AL c =? 1) || (q_addr q mod WB c =? 0)).
Lemma frame_b_ok c f : frame_b c f = true -> frame_ok c f.
Proof.
  unfold frame_b. intros H. apply andb_true_iff in H. destruct H as [H H7]. apply andb_true_iff in H. destruct H as [H H6]. apply andb_true_iff in H. destruct H as [H H5].
  apply andb_true_iff in H. destruct H as [H H4]. apply andb_true_iff in H. destruct H as [H H3]. apply andb_true_iff in H. destruct H as [H1 H2].
  split; [apply Nat.eqb_eq, H1|]. split; [apply Forall_forall; intros w Hw; apply Nat.eqb_eq; exact (proj1 (forallb_forall _ _) H2 w Hw)|].
  split; [intros w Hw; apply Forall_forall; intros b Hb; apply negb_true_iff; refine (proj1 (forallb_forall _ _) H3 b _); rewrite (nth_error_nth _ _ _ Hw); exact Hb|].
  split; [apply dreq_ok_dec, H4|]. split; [unfold chunk_aligned; rewrite orb_true_iff, !Nat.eqb_eq in H5; exact H5|]. split; [left; left; apply Nat.ltb_lt, H6|].
  rewrite orb_true_iff, !Nat.eqb_eq in H7. exact H7.
Qed.
Definition driver_b (c : dpcfg) (fs : list (@frame nat)) (t : list (wp_in nat * wp_out nat)) : bool :=
  forallb (frame_b c) fs &&
  forallb (fun n => pre_b req_eqb (wp_started (firstn n t)) (map fst fs) && pre_b word_eqb (flat_map wp_dword (firstn n t)) (flat_map frame_words fs)) (seq 0 (length t + 1)).
Lemma driver_b_ok c fs t : driver_b c fs t = true -> wp_driver c fs t.
Proof.
  unfold driver_b. intros H. apply andb_true_iff in H. destruct H as [H1 H2].
  split; [apply Forall_forall; intros f Hf; apply frame_b_ok; exact (proj1 (forallb_forall _ _) H1 f Hf)|].
  intros t1 t2 ->. rewrite forallb_forall in H2. specialize (H2 (length t1)).
  rewrite firstn_app, Nat.sub_diag, firstn_all, firstn_O, app_nil_r in H2.
  assert (In (length t1) (seq 0 (length (t1 ++ t2) + 1))) as Hin by (apply in_seq; rewrite app_length; lia).
  apply H2, andb_true_iff in Hin. destruct Hin as [A B]. split; [apply (pre_b_ok _ _ _ req_eqb_ok A)|apply (pre_b_ok _ _ _ word_eqb_ok B)].
Qed.

(** frames: 15 words from byte 1 (16 bus words), then 2 whole words *)
Definition fword (k : nat) : nword := map (fun j => (10 * k + j, true)) (seq 0 8).
Definition fa : @frame nat := (mk_dreq 1 14 0, map fword (seq 0 15)).
Definition fb : @frame nat := (mk_dreq 256 1 0, [fword 20; fword 21]).
Definition nof : dreq := mk_dreq 0 0 0.
(** driver.req vld and value, driver.w valid, word, last; the bus always takes and answers, acknowledges are taken *)
Definition win (v : bool) (q : dreq) (wv : bool) (w : nword) (l : bool) : wp_in nat := mk_wpi v q true wv w l true true true true.
Definition w_req : list (wp_in nat) := [win true (fst fa) false (fword 0) false; win true (fst fb) false (fword 0) false; win false nof false (fword 0) false].
Definition w_a : list (wp_in nat) := map (fun k => win false nof true (fword k) (k =? 14)) (seq 0 15).
Definition w_b : list (wp_in nat) := [win false nof true (fword 20) false; win false nof true (fword 21) true].
Definition w_end : list (wp_in nat) := [win false nof false (fword 0) false; win false nof false (fword 0) false; win false nof false (fword 0) false].
(** after the last word of the first frame the driver waits for a cycle / offers the next word at once *)
Definition gap_is : list (wp_in nat) := w_req ++ w_a ++ [win false nof false (fword 0) false] ++ w_b ++ w_end.
Definition full_is : list (wp_in nat) := w_req ++ w_a ++ [win false nof true (fword 20) false] ++ w_b ++ w_end.
Notation w_run_of is :=
  (trace (wp_step cfg_un 0 0) (wp_init cfg_un 0 0 (fun _ => mk_winfo 0 false) (mk_winfo 0 false) (fun _ => false) false (fword 0)) is).
Notation gap_t := (w_run_of gap_is).
Notation full_t := (w_run_of full_is).
Lemma okay_is (is : list (wp_in nat)) : forallb ui_okay is = true -> Forall (fun i => ui_bv i = true -> ui_okay i = true) is.
Proof. intros H. apply Forall_forall. intros i Hi _. exact (proj1 (forallb_forall _ _) H i Hi). Qed.
Lemma gap_okay : Forall (fun i => ui_bv i = true -> ui_okay i = true) gap_is. Proof. apply okay_is. vm_compute. reflexivity. Qed.
Lemma full_okay : Forall (fun i => ui_bv i = true -> ui_okay i = true) full_is. Proof. apply okay_is. vm_compute. reflexivity. Qed.
Lemma gap_kept : wp_kept gap_t. Proof. apply wkept_b_ok. vm_compute. reflexivity. Qed.
Lemma full_kept : wp_kept full_t. Proof. apply wkept_b_ok. vm_compute. reflexivity. Qed.
Lemma gap_driver : wp_driver cfg_un [fa; fb] gap_t. Proof. apply driver_b_ok. vm_compute. reflexivity. Qed.
Lemma full_driver : wp_driver cfg_un [fa; fb] full_t. Proof. apply driver_b_ok. vm_compute. reflexivity. Qed.
Lemma full_busy : wp_busy full_t.
Proof.
  assert (forallb (fun x => negb (uo_v (snd x)) || ui_v (fst x)) full_t = true) as H by (vm_compute; reflexivity).
  apply Forall_forall. intros x Hx V. pose proof (proj1 (forallb_forall _ _) H x Hx) as E. cbn beta in E. rewrite V in E. exact E.
Qed.
Lemma gap_bad : ~ wp_law cfg_un [fa; fb] gap_t.
Proof. intros [gs [rest [_ [_ [_ [[more L] _]]]]]]. vm_compute in L. discriminate L. Qed.
Lemma cfg_un_ok : dp_cfg_ok cfg_un. Proof. apply (cfg_ok_pow 4 13 3 0 3 511 0 4); lia. Qed.

(** ALIGNAS = 32, DATA_WIDTH = 64: a request at byte 4 *)
Definition cfg_half : dpcfg := mk_dpcfg 4 13 8 4 4 511 4.
Definition half_q : dreq := mk_dreq 4 0 4.
Lemma cfg_half_ok : dp_cfg_ok cfg_half. Proof. apply (cfg_ok_pow 4 13 3 2 2 511 0 4); lia. Qed.
Lemma half_ok : dreq_ok cfg_half half_q /\ chunk_aligned cfg_half half_q /\ fits cfg_half half_q.
Proof. split; [apply dreq_ok_dec; vm_compute; reflexivity|]. split; [right; vm_compute; reflexivity|left; left; apply Nat.ltb_lt; vm_compute; reflexivity]. Qed.
Lemma half_lt : 1 < AL cfg_half < WB cfg_half. Proof. cbn. lia. Qed.
Lemma half_stops (i : wp_in nat) (is : list (wp_in nat)) xl xb a0 l0 m0 d0 m1 d1 p0 : ui_vld i = true -> ui_req i = half_q ->
  let t := trace (wp_step cfg_half xl xb) (wp_init cfg_half a0 l0 m0 d0 m1 d1 p0) (i :: is) in
  Forall (fun x => uo_err (snd x) || uo_aerr (snd x) = true) (tl t) /\ flat_map wp_beat t = [].
Proof.
  intros V Eq t. unfold t. rewrite trace_cons. cbn [tl flat_map].
  assert (u_err (fst (wp_step cfg_half xl xb (wp_init cfg_half a0 l0 m0 d0 m1 d1 p0) i)) || u_aerr (fst (wp_step cfg_half xl xb (wp_init cfg_half a0 l0 m0 d0 m1 d1 p0) i)) = true) as E.
  { unfold wp_step. destruct (ah_step _ _ _ _). cbn [fst u_err u_aerr wp_init]. rewrite V, Eq. replace (AL cfg_half =? 1) with false by reflexivity.
    replace (addr_is_aligned cfg_half (q_addr half_q)) with false by reflexivity. cbn [andb negb orb]. apply orb_true_r. }
  destruct (w_err_run cfg_half xl xb is _ (al_ok_step cfg_half xl xb _ i) E) as [_ [_ [E3 E4]]]. split; [exact E4|]. rewrite E3, app_nil_r.
  unfold wp_step. destruct (ah_step _ _ _ _). unfold wp_beat. cbn [fst snd uo_v wp_init u_wf]. cbn [hsf_init ovld]. rewrite ?andb_false_r. reflexivity.
Qed.
