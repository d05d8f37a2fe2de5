(** Proofs about Axi4Lite_to_Ipif. *)
From Verif Require Import Base BaseFacts IpifModel IpifSpec.

Ltac sm := cbn; rewrite ?andb_false_r; cbn.

Section P.
  Context {AD D M : Type}.
  Notation step := (ip_step (AD := AD) (D := D) (M := M)).
  Definition Op (s : ipif AD D M) (open : list (event AD D M)) : Prop :=
    match p_st s with
    | s_idle => open = []
    | s_read => open = [AR (p_addr s)]
    | s_rack => exists a e, open = [AR a; IR a (p_dr s) e] /\ p_resp s = resp_of e
    | s_wait => open = [AW (p_addr s)]
    | s_write => open = [AW (p_addr s); W (p_dw s) (p_sw s)]
    | s_wack => exists a d m e, open = [AW a; W d m; IW a d m e] /\ p_resp s = resp_of e
    end.
  Definition Inv (s : ipif AD D M) (l : list (event AD D M)) : Prop :=
    p_rv s = false /\ exists done open, l = done ++ open /\ trans done /\ Op s open.

  Lemma inv_step s l i : Inv s l -> polite (i, snd (step s i)) -> Inv (fst (step s i)) (l ++ events1 (i, snd (step s i))).
  Proof.
    intros (V & dn & op & -> & T & O) [P1 P2].
    destruct s as [st ad dr dw sw rv rs], i as [arv ar awv aw wv wd ws rrd brd rdack wrack er da]. cbn in V. subst rv. unfold Op in O. cbn in O.
    cbn [fst snd step ip_step p_st is_idle io_cs io_rnw ii_rdack ii_wrack] in P1, P2.
    destruct st.
    - assert (rdack = false) as -> by (destruct rdack; [destruct (P1 eq_refl); discriminate|reflexivity]).
      assert (wrack = false) as -> by (destruct wrack; [destruct (P2 eq_refl); discriminate|reflexivity]).
      subst op. rewrite app_nil_r. split; [reflexivity|]. exists dn.
      destruct arv; [exists [AR ar]|destruct awv; [exists [AW aw]|exists []]]; sm; repeat split; auto; rewrite app_nil_r; reflexivity.
    - assert (rdack = false) as -> by (destruct rdack; [destruct (P1 eq_refl); discriminate|reflexivity]).
      subst op. split; [reflexivity|]. destruct wrack; [destruct brd|].
      + exists (dn ++ [AW ad; W dw sw; IW ad dw sw er; B (resp_of er)]), []. sm. rewrite app_nil_r, <- app_assoc. repeat split. constructor. exact T.
      + exists dn, [AW ad; W dw sw; IW ad dw sw er]. sm. rewrite <- app_assoc. repeat split; [exact T|]. exists ad, dw, sw, er. split; reflexivity.
      + exists dn, [AW ad; W dw sw]. sm. rewrite app_nil_r. repeat split. exact T.
    - assert (rdack = false) as -> by (destruct rdack; [destruct (P1 eq_refl); discriminate|reflexivity]).
      assert (wrack = false) as -> by (destruct wrack; [destruct (P2 eq_refl); discriminate|reflexivity]).
      subst op. split; [reflexivity|]. destruct wv.
      + exists dn, [AW ad; W wd ws]. sm. rewrite <- app_assoc. repeat split. exact T.
      + exists dn, [AW ad]. sm. rewrite app_nil_r. repeat split. exact T.
    - assert (rdack = false) as -> by (destruct rdack; [destruct (P1 eq_refl); discriminate|reflexivity]).
      assert (wrack = false) as -> by (destruct wrack; [destruct (P2 eq_refl); discriminate|reflexivity]).
      destruct O as (a & d & m & e & -> & ->). split; [reflexivity|]. destruct brd.
      + exists (dn ++ [AW a; W d m; IW a d m e; B (resp_of e)]), []. sm. rewrite app_nil_r, <- app_assoc. repeat split. constructor. exact T.
      + exists dn, [AW a; W d m; IW a d m e]. sm. rewrite app_nil_r. repeat split; [exact T|]. exists a, d, m, e. auto.
    - assert (wrack = false) as -> by (destruct wrack; [destruct (P2 eq_refl); discriminate|reflexivity]).
      subst op. split; [reflexivity|]. destruct rdack; [destruct rrd|].
      + exists (dn ++ [AR ad; IR ad da er; R (Some da) (resp_of er)]), []. sm. rewrite app_nil_r, <- app_assoc. repeat split. constructor. exact T.
      + exists dn, [AR ad; IR ad da er]. sm. rewrite <- app_assoc. repeat split; [exact T|]. exists ad, er. split; reflexivity.
      + exists dn, [AR ad]. sm. rewrite app_nil_r. repeat split. exact T.
    - assert (rdack = false) as -> by (destruct rdack; [destruct (P1 eq_refl); discriminate|reflexivity]).
      assert (wrack = false) as -> by (destruct wrack; [destruct (P2 eq_refl); discriminate|reflexivity]).
      destruct O as (a & e & -> & ->). split; [reflexivity|]. destruct rrd.
      + exists (dn ++ [AR a; IR a dr e; R (Some dr) (resp_of e)]), []. sm. rewrite app_nil_r, <- app_assoc. repeat split. constructor. exact T.
      + exists dn, [AR a; IR a dr e]. sm. rewrite app_nil_r. repeat split; [exact T|]. exists a, e. auto.
  Qed.

  Lemma inv_run a d1 d2 m r is : Forall polite (trace step (ip_init a d1 d2 m r) is) ->
    Inv (final step (ip_init a d1 d2 m r) is) (events (trace step (ip_init a d1 d2 m r) is)).
  Proof.
    induction is as [|i is IH] using rev_ind; intros F.
    - split; [reflexivity|]. exists [], []. repeat split. constructor.
    - rewrite trace_snoc in *. apply Forall_app in F. destruct F as [F1 F2]. rewrite final_snoc. unfold events in *.
      rewrite flat_map_app. cbn [flat_map]. rewrite app_nil_r. apply inv_step; [apply IH; exact F1|]. exact (Forall_inv F2).
  Qed.

  Lemma ip_serial a d1 d2 m r is : let t := trace step (ip_init a d1 d2 m r) is in Forall polite t -> serial (events t).
  Proof.
    intros t F. destruct (inv_run a d1 d2 m r is F) as (_ & dn & op & E & T & O). exists dn, op. split; [exact E|]. split; [exact T|].
    unfold Op in O. destruct (p_st _).
    - left. exact O.
    - right. right. right. right. left. eauto.
    - right. right. right. left. eauto.
    - right. right. right. right. right. destruct O as (x & d & y & e & -> & _). eauto.
    - right. left. eauto.
    - right. right. left. destruct O as (x & e & -> & _). eauto.
  Qed.

  (** two cycles after any history of a polite slave *)
  Lemma ip_hold a d1 d2 m r is i j : let s0 := ip_init a d1 d2 m r in
    Forall polite (trace step s0 (is ++ [i; j])) -> let s := final step s0 is in
    let o := snd (step s i) in let o' := snd (step (fst (step s i)) j) in
    (io_rv o = true -> ii_rrd i = false -> io_rv o' = true /\ io_rd o' = io_rd o /\ io_rresp o' = io_rresp o) /\
    (io_bv o = true -> ii_brd i = false -> io_bv o' = true /\ io_bresp o' = io_bresp o) /\
    (io_cs o = true -> ii_rdack i || ii_wrack i = false ->
       io_cs o' = true /\ io_rnw o' = io_rnw o /\ io_addr o' = io_addr o /\ io_data o' = io_data o /\ io_be o' = io_be o) /\
    (io_cs o = true -> ii_rdack i || ii_wrack i = true -> io_cs o' = false).
  Proof.
    intros s0 F s o o'. unfold o, o', s. clear s o o'. rewrite trace_app in F. apply Forall_app in F. destruct F as [F1 F2].
    destruct (inv_run a d1 d2 m r is F1) as (V & _). fold s0 in V, F2. set (s := final step s0 is) in *. clearbody s. clear F1.
    rewrite trace_cons in F2. pose proof (Forall_inv F2) as [P1 P2]. apply Forall_inv_tail in F2. rewrite trace_cons in F2. apply Forall_inv in F2. destruct F2 as [Q1 Q2].
    destruct s as [st ad dr dw sw rv rs], i as [arv ar awv aw wv wd ws rrd brd rdack wrack er da], j as [arv' ar' awv' aw' wv' wd' ws' rrd' brd' rdack' wrack' er' da'].
    cbn in V. subst rv. cbn in P1, P2, Q1, Q2 |- *.
    destruct st, rdack, wrack; cbn in *; try (destruct (P1 eq_refl); discriminate); try (destruct (P2 eq_refl); discriminate);
      destruct rrd, brd; cbn in *; (repeat split; intros; try discriminate; try congruence);
      destruct rdack', wrack'; cbn in *; try (destruct (Q1 eq_refl); discriminate); try (destruct (Q2 eq_refl); discriminate); try reflexivity; try congruence.
  Qed.

  Lemma ip_progress s j1 j2 j3 : Forall eager (trace step s [j1; j2; j3]) ->
    existsb (fun c => io_arrd (snd c)) (trace step s [j1; j2; j3]) = true.
  Proof.
    rewrite !trace_cons. intros F. pose proof (Forall_inv F) as E1. pose proof (Forall_inv (Forall_inv_tail F)) as E2. clear F.
    destruct s as [st ad dr dw sw rv rs], j1 as [arv ar awv aw wv wd ws rrd brd rdack wrack er da], j2 as [arv' ar' awv' aw' wv' wd' ws' rrd' brd' rdack' wrack' er' da'].
    unfold eager in *. cbn in E1. destruct E1 as (-> & -> & -> & -> & ->). destruct st; cbn in *; try reflexivity; destruct E2 as (-> & -> & -> & -> & ->); reflexivity.
  Qed.
End P.
