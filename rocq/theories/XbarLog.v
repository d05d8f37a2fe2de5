(** The data crossbar of XbarModel.v and the log of requests of XbarSpec.v. *)
From Verif Require Import Base BaseFacts FifoModel HsRegModel JoinSplitModel OneHotModel EpModel XbarModel XbarSpec.

Lemma tab_eq {T} n (f : nat -> T) k : tab n f k = f k.
Proof.
  unfold tab. destruct (nth_error (map f (seq 0 n)) k) as [x|] eqn:E; [|reflexivity]. rewrite nth_error_map in E. destruct (nth_error (seq 0 n) k) as [j|] eqn:Ej; [|discriminate]. injection E as <-. f_equal.
  assert (k < n) by (rewrite <- (seq_length n 0); apply nth_error_Some; congruence). apply (nth_error_nth _ _ 0) in Ej. rewrite seq_nth in Ej by assumption. symmetry. exact Ej.
Qed.
Lemma any_seq (f : nat -> bool) n : any (map f (seq 0 n)) = true <-> exists k, k < n /\ f k = true.
Proof.
  unfold any. rewrite existsb_exists. split.
  - intros (b & Hin & Hb). apply in_map_iff in Hin. destruct Hin as (k & E & Hk). apply in_seq in Hk. exists k. split; [lia|congruence].
  - intros (k & Hk & E). exists true. split; [|reflexivity]. rewrite <- E. apply in_map, in_seq. lia.
Qed.
Lemma d_is_iff d k : d_is d k = true <-> d = Some k.
Proof. destruct d as [x|]; cbn; [rewrite Nat.eqb_eq|]; split; congruence. Qed.
Lemma if_iff (c b : bool) : (if c then b else true) = true <-> (c = true -> b = true).
Proof. destruct c; intuition congruence. Qed.

Section Data.
  Context {A : Type}.
  Variables (NI NO : nat) (C : nat -> nat -> bool) (lst : A -> bool) (hi ho : nat -> bool) (oi oo : nat -> bool * option nat) (dv : nat -> option A) (ordy : nat -> bool).
  Hypothesis Hi : forall i o o', i < NI -> o < NO -> o' < NO -> hi i = false -> C o i = true -> C o' i = true -> o = o'.
  Hypothesis Ho : forall o i i', o < NO -> i < NI -> i' < NI -> ho o = false -> C o i = true -> C o i' = true -> i = i'.

  (** the input [i] hands a word over to the output [o] *)
  Definition mvb (o i : nat) : bool :=
    C o i && some (dv i) && ordy o && (if hi i then fst (oi i) && d_is (snd (oi i)) o else true) && (if ho o then fst (oo o) && d_is (snd (oo o)) i else true).
  Lemma mvb_iff o i : mvb o i = true <->
    C o i = true /\ some (dv i) = true /\ ordy o = true /\ (hi i = true -> oi i = (true, Some o)) /\ (ho o = true -> oo o = (true, Some i)).
  Proof.
    unfold mvb. rewrite !andb_true_iff, !if_iff, !andb_true_iff, !d_is_iff. destruct (oi i) as [a b], (oo o) as [c d]. cbn [fst snd]. split.
    - intros ((((H1 & H2) & H3) & H4) & H5). repeat split; auto; intros H; [destruct (H4 H)|destruct (H5 H)]; congruence.
    - intros (H1 & H2 & H3 & H4 & H5). repeat split; auto; try (specialize (H4 H); congruence); specialize (H5 H); congruence.
  Qed.
  Lemma mvb_fun_i o i i' : o < NO -> i < NI -> i' < NI -> mvb o i = true -> mvb o i' = true -> i = i'.
  Proof.
    intros H0 H1 H2. rewrite !mvb_iff. intros (A1 & _ & _ & _ & A2) (B1 & _ & _ & _ & B2). destruct (ho o) eqn:E.
    - specialize (A2 eq_refl). specialize (B2 eq_refl). congruence.
    - eapply Ho; eauto.
  Qed.
  Lemma mvb_fun_o o o' i : o < NO -> o' < NO -> i < NI -> mvb o i = true -> mvb o' i = true -> o = o'.
  Proof.
    intros H0 H1 H2. rewrite !mvb_iff. intros (A1 & _ & _ & A2 & _) (B1 & _ & _ & B2 & _). destruct (hi i) eqn:E.
    - specialize (A2 eq_refl). specialize (B2 eq_refl). congruence.
    - eapply Hi; eauto.
  Qed.
  Ltac bt := rewrite ?andb_true_iff, ?if_iff in *; rewrite ?andb_true_iff in *; tauto.
  Lemma irdy_iff i : some (dv i) && c_irdy NO C hi ho oi oo ordy i = true <-> exists o, o < NO /\ mvb o i = true.
  Proof.
    unfold c_irdy, c_sel. destruct (hi i) eqn:E; rewrite ?andb_true_iff, any_seq; split.
    - intros (H1 & H2 & o & Ho' & H). exists o. split; [exact Ho'|]. unfold mvb. rewrite E. bt.
    - intros (o & Ho' & H). unfold mvb in H. rewrite E in H. repeat split; [bt|bt|]. exists o. split; [exact Ho'|]. bt.
    - intros (H1 & o & Ho' & H). exists o. split; [exact Ho'|]. unfold mvb. rewrite E. bt.
    - intros (o & Ho' & H). unfold mvb in H. rewrite E in H. split; [bt|]. exists o. split; [exact Ho'|]. bt.
  Qed.
  Lemma ov_iff o : c_ov NI C hi ho oi oo dv o && ordy o = true <-> exists i, i < NI /\ mvb o i = true.
  Proof.
    unfold c_ov, c_selv. destruct (ho o) eqn:E; rewrite ?andb_true_iff, any_seq; split.
    - intros (((i & Hi' & H) & H1) & H2). exists i. split; [exact Hi'|]. unfold mvb. rewrite E. rewrite !andb_true_iff, !if_iff in *. tauto.
    - intros (i & Hi' & H). unfold mvb in H. rewrite E in H. rewrite !andb_true_iff, !if_iff in H. repeat split; try tauto. exists i. split; [exact Hi'|]. rewrite !andb_true_iff, !if_iff. tauto.
    - intros ((i & Hi' & H) & H2). exists i. split; [exact Hi'|]. unfold mvb. rewrite E. rewrite !andb_true_iff, !if_iff in *. tauto.
    - intros (i & Hi' & H). unfold mvb in H. rewrite E in H. rewrite !andb_true_iff, !if_iff in H. repeat split; try tauto. exists i. split; [exact Hi'|]. rewrite !andb_true_iff, !if_iff. tauto.
  Qed.
  Lemma popi_iff i : hi i = true -> (fst (oi i) && c_oird NO C lst hi ho oi oo dv ordy i = true <-> c_last lst dv i = true /\ exists o, o < NO /\ mvb o i = true).
  Proof.
    intros E. rewrite <- irdy_iff. unfold c_oird, c_irdy. rewrite E. destruct (fst (oi i)), (some (dv i)), (c_last lst dv i), (c_sel NO C hi ho oi oo ordy i); cbn; intuition congruence.
  Qed.
  Lemma popo_iff o : ho o = true -> (fst (oo o) && c_oord NI C lst hi ho oi oo dv ordy o = true <-> exists i, i < NI /\ mvb o i = true /\ c_last lst dv i = true).
  Proof.
    intros E. unfold c_oord, c_selv, c_sell. rewrite !andb_true_iff, !any_seq, E. split.
    - intros (H0 & ((i & Hi' & H) & (i' & Hi'' & H')) & H2). rewrite !andb_true_iff, ?if_iff in *. assert (i = i') as <-. { destruct H as ((_ & H) & _), H' as (_ & H'). destruct H' as [_ H']. apply d_is_iff in H, H'. congruence. }
      exists i. split; [exact Hi'|]. unfold mvb. rewrite E. bt.
    - intros (i & Hi' & H & Hl). unfold mvb in H. rewrite E, !andb_true_iff, if_iff in H. split; [tauto|]. split; [|tauto]. split; exists i; (split; [exact Hi'|]); bt.
  Qed.
  Lemma data_mv o i : o < NO -> i < NI -> mvb o i = true -> c_data NI C ho oo dv o = dv i.
  Proof.
    intros Hlo Hli H. pose proof H as Hm. apply mvb_iff in H. destruct H as (H1 & _ & _ & _ & H2). unfold c_data. destruct (ho o) eqn:E.
    - rewrite (H2 eq_refl). cbn [snd]. apply Nat.ltb_lt in Hli. rewrite Hli. reflexivity.
    - destruct (filter (C o) (seq 0 NI)) as [|i' r] eqn:Ef.
      + assert (In i (filter (C o) (seq 0 NI))) as Hin by (apply filter_In; split; [apply in_seq; lia|exact H1]). rewrite Ef in Hin. contradiction.
      + assert (In i' (filter (C o) (seq 0 NI))) as Hin by (rewrite Ef; left; reflexivity). apply filter_In in Hin. destruct Hin as [Hin Hc]. apply in_seq in Hin.
        f_equal. apply (Ho o); auto; lia.
  Qed.
End Data.

(** * the log *)
Section Log.
  Context {A B : Type}.
  Variable lst : A -> bool.
  Notation tx := (tx A B).
  Notation in_order := (in_order lst).
  Definition pend (x : tx) : bool := negb (existsb lst (tx_ws x)).
  Definition push (x : tx) (w : A) : tx := mk_tx (tx_m x) (tx_s x) (tx_a x) (tx_ws x ++ [w]).
  Fixpoint deliver (m s : nat) (w : A) (L : list tx) : list tx :=
    match L with
    | [] => []
    | x :: r => if pend x && ((tx_m x =? m) && (tx_s x =? s)) then push x w :: r else x :: deliver m s w r
    end.

  Lemma no_last ws : Forall (fun w => lst w = false) ws <-> existsb lst ws = false.
  Proof.
    induction ws as [|w ws IH]; cbn; [split; auto|]. rewrite orb_false_iff, <- IH. split; [intros H; split; [exact (Forall_inv H)|exact (Forall_inv_tail H)]|intros [H1 H2]; constructor; auto].
  Qed.
  Lemma whole_not_pend x : whole lst (tx_ws x) -> pend x = false.
  Proof. intros (l & w & E & Hw & _). unfold pend. rewrite E, existsb_app. cbn. rewrite Hw, orb_true_r. reflexivity. Qed.
  Lemma empty_pend x : tx_ws x = [] -> pend x = true.
  Proof. intros E. unfold pend. rewrite E. reflexivity. Qed.
  Lemma part_pend x : Forall (fun w => lst w = false) (tx_ws x) -> pend x = true.
  Proof. intros H%no_last. unfold pend. rewrite H. reflexivity. Qed.
  Lemma pend_part x : pend x = true -> Forall (fun w => lst w = false) (tx_ws x).
  Proof. intros H. apply no_last. unfold pend in H. destruct (existsb lst (tx_ws x)); [discriminate|reflexivity]. Qed.

  Lemma deliver_req m s w L : map req (deliver m s w L) = map req L.
  Proof. induction L as [|x L IH]; cbn; [reflexivity|]. destruct (pend x && ((tx_m x =? m) && (tx_s x =? s))); cbn [map]; [reflexivity|rewrite IH; reflexivity]. Qed.
  Lemma deliver_m m' m s w L : of_m m' (deliver m s w L) = if m' =? m then deliver m s w (of_m m' L) else of_m m' L.
  Proof.
    unfold of_m. induction L as [|x L IH]; cbn [deliver filter].
    - destruct (m' =? m); reflexivity.
    - destruct (pend x && ((tx_m x =? m) && (tx_s x =? s))) eqn:E; cbn [filter push tx_m].
      + apply andb_prop in E. destruct E as [E1 [E2 E3]%andb_prop]. apply Nat.eqb_eq in E2. rewrite E2. rewrite (Nat.eqb_sym m' m). destruct (Nat.eqb_spec m m') as [->|Hn]; [|reflexivity].
        cbn [deliver]. rewrite E2, Nat.eqb_refl, E1, E3. reflexivity.
      + rewrite IH. destruct (Nat.eqb_spec (tx_m x) m') as [Ex|Ex]; [|reflexivity]. destruct (m' =? m); [|reflexivity]. cbn [deliver]. rewrite E. reflexivity.
  Qed.
  Lemma deliver_s s' m s w L : of_s s' (deliver m s w L) = if s' =? s then deliver m s w (of_s s' L) else of_s s' L.
  Proof.
    unfold of_s. induction L as [|x L IH]; cbn [deliver filter].
    - destruct (s' =? s); reflexivity.
    - destruct (pend x && ((tx_m x =? m) && (tx_s x =? s))) eqn:E; cbn [filter push tx_s].
      + apply andb_prop in E. destruct E as [E1 [E2 E3]%andb_prop]. apply Nat.eqb_eq in E3. rewrite E3. rewrite (Nat.eqb_sym s' s). destruct (Nat.eqb_spec s s') as [->|Hn]; [|reflexivity].
        cbn [deliver]. rewrite E3, Nat.eqb_refl, E1, E2. reflexivity.
      + rewrite IH. destruct (Nat.eqb_spec (tx_s x) s') as [Ex|Ex]; [|reflexivity]. destruct (s' =? s); [|reflexivity]. cbn [deliver]. rewrite E. reflexivity.
  Qed.

  (** a word for the first request of a view which is not complete *)
  Lemma words_empty (r : list tx) : Forall (fun y => tx_ws y = []) r -> words r = [].
  Proof. induction 1 as [|y r Hy Hr IH]; [reflexivity|]. unfold words in *. cbn [flat_map]. rewrite Hy, IH. reflexivity. Qed.
  Lemma in_order_empty (r : list tx) : Forall (fun y => tx_ws y = []) r -> in_order r.
  Proof. destruct r as [|y r]; intros H; cbn; [exact I|]. right. split; [rewrite (Forall_inv H); constructor|exact (Forall_inv_tail H)]. Qed.
  Lemma pend_empty (r : list tx) : Forall (fun y => tx_ws y = []) r -> filter pend r = r.
  Proof. induction 1 as [|y r Hy Hr IH]; [reflexivity|]. cbn [filter]. rewrite (empty_pend y Hy), IH. reflexivity. Qed.
  Lemma deliver_view m s w V x r : in_order V -> filter pend V = x :: r -> tx_m x = m -> tx_s x = s ->
    in_order (deliver m s w V) /\ words (deliver m s w V) = words V ++ [w] /\ filter pend (deliver m s w V) = if lst w then r else push x w :: r.
  Proof.
    intros Ho Hp <- <-. induction V as [|y V IH]; [discriminate|]. cbn [deliver filter] in *. destruct Ho as [[Hw Ho]|[Hn He]].
    - pose proof (whole_not_pend y Hw) as Ey. rewrite Ey in *. cbn [andb]. destruct (IH Ho Hp) as (H1 & H2 & H3). repeat split.
      + left. auto.
      + unfold words in *. cbn [flat_map]. rewrite H2, app_assoc. reflexivity.
      + cbn [filter]. rewrite Ey. exact H3.
    - pose proof (part_pend y Hn) as Ey. rewrite Ey in *. injection Hp as E1 E2. subst y. rewrite !Nat.eqb_refl. cbn [andb]. rewrite (pend_empty V He) in E2. subst r.
      assert (tx_ws (push x w) = tx_ws x ++ [w]) as Ew by reflexivity. repeat split.
      + cbn [XbarSpec.in_order]. destruct (lst w) eqn:El.
        * left. split; [exists (tx_ws x), w; auto|apply in_order_empty, He].
        * right. split; [|exact He]. rewrite Ew. apply Forall_app. split; [exact Hn|constructor; [exact El|constructor]].
      + unfold words. cbn [flat_map]. rewrite Ew. fold (words V). rewrite (words_empty V He), !app_nil_r. reflexivity.
      + cbn [filter]. rewrite (pend_empty V He). unfold pend at 1. rewrite Ew, existsb_app. apply no_last in Hn. rewrite Hn. cbn. destruct (lst w); reflexivity.
  Qed.
  (** new requests *)
  Lemma in_order_app V G : in_order V -> Forall (fun y : tx => tx_ws y = []) G -> in_order (V ++ G).
  Proof.
    intros Ho HG. induction V as [|y V IH]; [exact (in_order_empty G HG)|]. cbn [app XbarSpec.in_order] in *. destruct Ho as [[H1 H2]|[H1 H2]]; [left; auto|right]. split; [exact H1|]. apply Forall_app. auto.
  Qed.
  Lemma words_app (V G : list tx) : Forall (fun y : tx => tx_ws y = []) G -> words (V ++ G) = words V.
  Proof. intros HG. unfold words. rewrite flat_map_app. fold (words G). rewrite (words_empty G HG), app_nil_r. reflexivity. Qed.

  (** the first waiting request of the view of [m] and of the view of [s] is the same one *)
  Lemma same_front m s (L : list tx) x r : filter pend (of_s s L) = x :: r -> tx_m x = m -> Forall (fun y => tx_m y = m -> tx_s y = s) L ->
    exists r', filter pend (of_m m L) = x :: r'.
  Proof.
    unfold of_s, of_m. intros H Hm HF. induction L as [|y L IH]; [discriminate|]. cbn [filter] in *. pose proof (Forall_inv HF) as Hy. cbn beta in Hy.
    destruct (Nat.eqb_spec (tx_s y) s) as [E|E].
    - cbn [filter] in H. destruct (pend y) eqn:Ep.
      + injection H as E1 E2. subst y. rewrite Hm, Nat.eqb_refl. cbn [filter]. rewrite Ep. eauto.
      + destruct (tx_m y =? m); cbn [filter]; rewrite ?Ep; apply IH; auto; exact (Forall_inv_tail HF).
    - destruct (Nat.eqb_spec (tx_m y) m) as [E'|E']; [contradiction (E (Hy E'))|]. apply IH; auto; exact (Forall_inv_tail HF).
  Qed.
  Lemma same_front' m s (L : list tx) x r : filter pend (of_m m L) = x :: r -> tx_s x = s -> Forall (fun y => tx_s y = s -> tx_m y = m) L ->
    exists r', filter pend (of_s s L) = x :: r'.
  Proof.
    unfold of_s, of_m. intros H Hm HF. induction L as [|y L IH]; [discriminate|]. cbn [filter] in *. pose proof (Forall_inv HF) as Hy. cbn beta in Hy.
    destruct (Nat.eqb_spec (tx_m y) m) as [E|E].
    - cbn [filter] in H. destruct (pend y) eqn:Ep.
      + injection H as E1 E2. subst y. rewrite Hm, Nat.eqb_refl. cbn [filter]. rewrite Ep. eauto.
      + destruct (tx_s y =? s); cbn [filter]; rewrite ?Ep; apply IH; auto; exact (Forall_inv_tail HF).
    - destruct (Nat.eqb_spec (tx_s y) s) as [E'|E']; [contradiction (E (Hy E'))|]. apply IH; auto; exact (Forall_inv_tail HF).
  Qed.

  (** the words of one cycle *)
  Variable tr : nat -> option (nat * A).
  Definition dall (l : list nat) (L : list tx) : list tx := fold_left (fun L m => match tr m with Some (s, w) => deliver m s w L | None => L end) l L.
  Lemma dall_req l : forall L, map req (dall l L) = map req L.
  Proof. unfold dall. induction l as [|m l IH]; intros L; cbn [fold_left]; [reflexivity|]. rewrite IH. destruct (tr m) as [[s w]|]; [apply deliver_req|reflexivity]. Qed.
  Lemma dall_m_out m l : ~ In m l -> forall L, of_m m (dall l L) = of_m m L.
  Proof.
    unfold dall. induction l as [|m' l IH]; intros Hn L; cbn [fold_left]; [reflexivity|]. rewrite IH by (intros H; apply Hn; right; exact H).
    destruct (tr m') as [[s w]|]; [|reflexivity]. rewrite deliver_m. destruct (Nat.eqb_spec m m') as [->|]; [|reflexivity]. contradiction Hn. left. reflexivity.
  Qed.
  Lemma dall_m_in m l : NoDup l -> In m l -> forall L, of_m m (dall l L) = match tr m with Some (s, w) => deliver m s w (of_m m L) | None => of_m m L end.
  Proof.
    unfold dall. induction l as [|m' l IH]; intros Hd Hn L; [contradiction|]. cbn [fold_left]. inversion Hd as [|? ? Hd1 Hd2]; subst. destruct (Nat.eq_dec m' m) as [->|Hne].
    - fold (dall l (match tr m with Some (s, w) => deliver m s w L | None => L end)). rewrite (dall_m_out m l Hd1). destruct (tr m) as [[s w]|]; [|reflexivity]. rewrite deliver_m, Nat.eqb_refl. reflexivity.
    - destruct Hn as [Hn|Hn]; [contradiction|]. rewrite IH by auto. destruct (tr m') as [[s' w']|]; [|reflexivity]. rewrite deliver_m. destruct (Nat.eqb_spec m m'); [congruence|reflexivity].
  Qed.
  Lemma dall_s_out s l : (forall m w, In m l -> tr m <> Some (s, w)) -> forall L, of_s s (dall l L) = of_s s L.
  Proof.
    unfold dall. induction l as [|m' l IH]; intros Hn L; cbn [fold_left]; [reflexivity|]. rewrite IH by (intros m w H; apply Hn; right; exact H).
    destruct (tr m') as [[s' w]|] eqn:E; [|reflexivity]. rewrite deliver_s. destruct (Nat.eqb_spec s s') as [->|]; [|reflexivity]. contradiction (Hn m' w (or_introl eq_refl)).
  Qed.
  Lemma dall_s_in m s w l : NoDup l -> In m l -> tr m = Some (s, w) -> (forall m' w', In m' l -> tr m' = Some (s, w') -> m' = m) ->
    forall L, of_s s (dall l L) = deliver m s w (of_s s L).
  Proof.
    unfold dall. induction l as [|m' l IH]; intros Hd Hn Ht Hu L; [contradiction|]. cbn [fold_left]. inversion Hd as [|? ? Hd1 Hd2]; subst. destruct (Nat.eq_dec m' m) as [->|Hne].
    - rewrite Ht. fold (dall l (deliver m s w L)). rewrite dall_s_out; [rewrite deliver_s, Nat.eqb_refl; reflexivity|].
      intros m' w' Hin E. rewrite (Hu m' w' (or_intror Hin) E) in Hin. contradiction.
    - destruct Hn as [Hn|Hn]; [contradiction|]. rewrite IH; auto; [|intros m'' w'' Hin; apply Hu; right; exact Hin]. f_equal.
      destruct (tr m') as [[s' w']|] eqn:E; [|reflexivity]. rewrite deliver_s. destruct (Nat.eqb_spec s s') as [->|]; [|reflexivity]. contradiction Hne. exact (Hu m' w' (or_introl eq_refl) E).
  Qed.
End Log.
