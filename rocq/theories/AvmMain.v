From Verif Require Import Base BaseFacts StreamSpec StreamFacts FifoModel FifoSpec FifoProofs HsFifoProofs AvmModel AvmSpec AvmProofs AvmReads AvmWrites.
Local Arguments wrap : simpl never. Local Arguments wdec : simpl never. Local Arguments winc : simpl never. Local Arguments Nat.pow : simpl never.

Section Main.
  Context {AD ID D M : Type}.
  Variable RP : bool.
  Variable DEPTH : nat.
  Notation St := (avm_st AD ID D).
  Notation In_ := (avm_in AD ID D M).
  Notation cyc := (avm_in AD ID D M * avm_out AD ID D M)%type.
  Notation step := (avm_step (M := M) RP DEPTH).
  Variables (a : AD) (d : ID) (l ol : nat) (w : bool) (m1 : nat -> ID * nat) (x1 : ID * nat) (m2 : nat -> D) (x2 : D) (ci : ID) (cl : nat).
  Notation s0 := (avm_init DEPTH a d l ol w m1 x1 m2 x2 ci cl).

  Lemma returns_pre (t u : list cyc) : returns_ok (t ++ u) -> returns_ok t.
  Proof.
    intros H n. destruct (Nat.le_gt_cases n (length t)) as [Hn|Hn].
    - specialize (H n). rewrite firstn_app in H. replace (n - length t) with 0 in H by lia. rewrite app_nil_r in H. exact H.
    - specialize (H (length t)). rewrite firstn_app, Nat.sub_diag, firstn_all, app_nil_r in H. rewrite firstn_all2 by lia. exact H.
  Qed.
  Lemma returns_all (t : list cyc) : returns_ok t -> length (rets t) <= total (map snd (reads t)).
  Proof. intros H. specialize (H (length t)). rewrite firstn_all in H. exact H. Qed.
  Lemma room_pre dp (t u : list cyc) : room_ok dp (t ++ u) -> room_ok dp t.
  Proof. intros H t1 c t2 E. apply (H t1 c (t2 ++ u)). subst t. rewrite <- app_assoc. reflexivity. Qed.

  Lemma rq_run is : Forall lens_ok (trace step s0 is) -> RQ (final step s0 is) (trace step s0 is).
  Proof.
    induction is as [|i is IH] using rev_ind; intros H.
    - split; [reflexivity|discriminate].
    - rewrite final_snoc, trace_snoc in *. apply Forall_app in H. destruct H as [H1 H2]. apply Forall_inv in H2. destruct H2. apply rq_step; auto.
  Qed.
  Lemma ri_run is : 2 < DEPTH -> let t := trace step s0 is in Forall lens_ok t -> Forall (short DEPTH) t -> returns_ok t ->
    exists sq dq, RI DEPTH (final step s0 is) t sq dq.
  Proof.
    intros HD. induction is as [|i is IH] using rev_ind; intros t H1 H2 H3; unfold t in *; clear t.
    - exists [], []. assert (hsf_init (A := D) DEPTH [] m2 x2 = mk_hsf (fifo_init (inner_depth DEPTH) [] m2 x2) false) as E2 by (unfold hsf_init; cbn [length]; destruct DEPTH; [lia|reflexivity]).
      assert (hsf_init DEPTH [] m1 x1 = mk_hsf (fifo_init (inner_depth DEPTH) [] m1 x1) false) as E1 by (unfold hsf_init; cbn [length]; destruct DEPTH; [lia|reflexivity]).
      constructor; rewrite ?final_nil, ?trace_nil; unfold avm_init; cbn [sf df cap c_vld open_c flat_map length]; try discriminate; try reflexivity.
      + apply hrep_init; [lia|]. left. cbn. lia.
      + apply hrep_init; [lia|]. left. cbn. lia.
      + unfold open_c. cbn. lia.
      + constructor.
      + congruence.
      + intros _. rewrite E1. discriminate.
      + cbn. lia.
    - rewrite final_snoc, trace_snoc in *. apply Forall_app in H1, H2. destruct H1 as [A1 A2], H2 as [B1 B2]. apply Forall_inv in A2, B2. destruct A2 as [A2 A3].
      pose proof (returns_pre _ _ H3) as H4. destruct (IH A1 B1 H4) as (sq & dq & R).
      apply (ri_step RP DEPTH HD _ _ sq dq i R); auto using rq_run, returns_all.
  Qed.

  (** C123 *)
  Lemma avm_reads is : 2 < DEPTH -> let t := trace step s0 is in Forall lens_ok t -> Forall (short DEPTH) t -> returns_ok t ->
    (exists inside, rets t = map dat (rs t) ++ inside /\ length inside <= DEPTH) /\
    (exists rest, flat_map answer (ars t) = map mark (rs t) ++ rest /\ length rest <= DEPTH).
  Proof.
    intros HD t H1 H2 H3. destruct (ri_run is HD H1 H2 H3) as (sq & dq & R). fold t in R. split.
    - exists dq. split; [apply (ri_dat _ _ _ _ _ R)|apply (hrep_len DEPTH ltac:(lia) _ _ (ri_df _ _ _ _ _ R))].
    - eexists. split; [apply (ri_ans _ _ _ _ _ R)|]. rewrite app_length. pose proof (ri_cap _ _ _ _ _ R). lia.
  Qed.
  Lemma avm_offer is i j : 2 < DEPTH -> let t := trace step s0 (is ++ [i; j]) in Forall lens_ok t -> Forall (short DEPTH) t -> returns_ok t ->
    let t1 := trace step s0 is in let t2 := trace step s0 (is ++ [i]) in length (rs t1) < length (rets t1) ->
    length (rs t1) < length (rs t2) \/ o_rv (snd (step (final step s0 (is ++ [i])) j)) = true.
  Proof.
    intros HD t H1 H2 H3 t1 t2 Hlt.
    assert (t = t2 ++ [(j, snd (step (final step s0 (is ++ [i])) j))]) as Et.
    { unfold t, t2. replace (is ++ [i; j]) with ((is ++ [i]) ++ [j]) by (rewrite <- app_assoc; reflexivity). apply trace_snoc. }
    rewrite Et in H1, H2, H3. apply Forall_app in H1, H2. destruct H1 as [H1 _], H2 as [H2 _]. apply returns_pre in H3.
    destruct (ri_run (is ++ [i]) HD H1 H2 H3) as (sq2 & dq2 & R2). pose proof (rq_run (is ++ [i]) H1) as Q2.
    assert (t2 = t1 ++ [(i, snd (step (final step s0 is) i))]) as Et2 by apply trace_snoc.
    pose proof H1 as H1a. pose proof H2 as H2a. pose proof H3 as H3a. fold t2 in H1a, H2a, H3a. rewrite Et2 in H1a, H2a, H3a.
    apply Forall_app in H1a, H2a. destruct H1a as [A1 _], H2a as [A2 _]. pose proof (returns_pre _ _ H3a) as A3.
    destruct (ri_run is HD A1 A2 A3) as (sq & dq & R). pose proof (rq_run is A1) as Q. fold t1 in R, Q.
    destruct (out_all RP DEPTH (final step s0 is) i) as (_ & _ & _ & Orv & _).
    destruct (out_all RP DEPTH (final step s0 (is ++ [i])) j) as (_ & _ & _ & Orv2 & _). rewrite Orv2.
    assert (0 < length dq) as Hd by (pose proof (f_equal (@length _) (ri_dat _ _ _ _ _ R)) as E; rewrite app_length, map_length in E; lia).
    destruct (ovld (df (final step s0 is)) && v_rrd i) eqn:Er.
    - left. rewrite Et2. unfold rs at 2. rewrite evs_snoc. cbn [fst snd]. rewrite Orv. apply andb_prop in Er. destruct Er as [Er1 Er2].
      rewrite Er1, Er2, (dv_cv DEPTH HD _ _ _ _ R Q (returns_all _ A3) Er1). cbn [andb]. rewrite app_length. cbn. unfold rs. lia.
    - right. assert (ovld (df (final step s0 (is ++ [i]))) = true) as Ed.
      { rewrite final_snoc. destruct (st_all RP DEPTH (final step s0 is) i) as (_ & -> & _).
        rewrite (hs_ovld DEPTH ltac:(lia) _ _ _ (ri_df _ _ _ _ _ R)). unfold df_in. cbn [i_rd].
        destruct (ovld (df (final step s0 is))) eqn:Eo; cbn [negb b2n andb] in *.
        - rewrite Er. reflexivity.
        - rewrite orb_true_r. destruct (Nat.eqb_spec (length dq) 0); [lia|reflexivity]. }
      rewrite Ed. apply (dv_cv DEPTH HD _ _ _ _ R2 Q2 (returns_all _ H3) Ed).
  Qed.
  (** C124 *)
  Lemma avm_reqs is : let t := trace step s0 is in Forall lens_ok t -> exists rest, map req (ars t) = reads t ++ rest /\ length rest <= 1.
  Proof.
    intros t H. destruct (rq_run is H) as [E _]. eexists. split; [exact E|]. unfold pend_r. destruct (_ && _); cbn; lia.
  Qed.
  Lemma ans_ge (q : list (ID * nat)) : length q <= length (flat_map ans q).
  Proof. induction q as [|x q IH]; [cbn; lia|]. cbn [flat_map length]. rewrite app_length, ans_len. lia. Qed.
  Lemma room_en (s : St) (t : list cyc) sq dq (i : In_) : 2 < DEPTH -> RI DEPTH s t sq dq -> v_arv i = true -> will_idle s i = true ->
    length (flat_map answer (ars t)) + v_arl i + 1 <= length (rs t) + DEPTH -> (RP = false -> v_awv i && v_wv i = false) -> en_of RP DEPTH s i = true.
  Proof.
    intros HD R Hv Hi Hr Hp. rewrite (ri_ans _ _ _ _ _ R), !app_length, map_length in Hr. pose proof (ri_cap _ _ _ _ _ R) as Hc.
    assert (f_wwait (hf (sf s)) = false) as Hf.
    { rewrite (hs_wwait DEPTH ltac:(lia) _ _ (ri_sf _ _ _ _ _ R)). pose proof (ans_ge sq). apply Nat.eqb_neq. destruct (ovld (sf s)) eqn:Eo; cbn [b2n]; [lia|].
      destruct sq as [|x sq]; [cbn; lia|]. destruct (ri_new _ _ _ _ _ R Eo) as [H1 _]; [discriminate|]. lia. }
    unfold en_of, ar_en. rewrite Hf, Hv, Hi. pose proof (log2ceil_ge (DEPTH + 1)). rewrite wrap_small by (unfold cap_w; lia).
    assert (v_arl i <? cap s = true) as -> by (apply Nat.ltb_lt; lia). cbn [andb negb]. destruct RP; [reflexivity|]. rewrite (Hp eq_refl). cbn [negb andb]. rewrite andb_true_r.
    unfold not_last_w. destruct (is_w s) eqn:Ew; [|reflexivity]. rewrite (idle_w s i Ew) in Hi. apply andb_prop in Hi. rewrite (proj2 Hi). reflexivity.
  Qed.
  Lemma room_short (t : list cyc) : room_ok DEPTH t -> (exists is, t = trace step s0 is) -> 2 < DEPTH -> Forall lens_ok t -> returns_ok t -> Forall (short DEPTH) t.
  Proof.
    intros Hr [is ->] HD. induction is as [|i is IH] using rev_ind; intros H1 H3; [constructor|]. rewrite trace_snoc in *.
    apply Forall_app in H1. destruct H1 as [H1 _]. pose proof (returns_pre _ _ H3) as H4. specialize (IH (room_pre _ _ _ Hr) H1 H4).
    apply Forall_app. split; [exact IH|]. constructor; [|constructor]. intros Hv. specialize (Hr _ _ [] eq_refl Hv). cbn [fst] in *.
    destruct (ri_run is HD H1 IH H4) as (sq & dq & R). rewrite (ri_ans _ _ _ _ _ R), !app_length, map_length in Hr. pose proof (log2ceil_ge (DEPTH + 1)). lia.
  Qed.

  Definition guard (t : list cyc) : Prop := RP = true -> 2 < DEPTH /\ returns_ok t /\ room_ok DEPTH t.
  Lemma wi_run is : let t := trace step s0 is in Forall lens_ok t -> guard t -> exists done, WI (final step s0 is) t done.
  Proof.
    induction is as [|i is IH] using rev_ind; intros t H1 G; unfold t in *; clear t.
    - exists []. rewrite final_nil, trace_nil. unfold avm_init. constructor; try reflexivity. intros _. split; reflexivity.
    - rewrite final_snoc, trace_snoc in *. pose proof H1 as Hall. apply Forall_app in H1. destruct H1 as [A1 A2]. apply Forall_inv in A2. destruct A2 as [A2 A3].
      destruct IH as [done W]; [exact A1| |].
      { intros E. destruct (G E) as (G1 & G2 & G3). repeat split; [exact G1|exact (returns_pre _ _ G2)|exact (room_pre _ _ _ G3)]. }
      eapply wi_step; [|exact (proj2 (rq_run is A1))|exact A3|exact W].
      intros E Hv Hi. destruct (G E) as (G1 & G2 & G3). pose proof (returns_pre _ _ G2) as G2'. pose proof (room_pre _ _ _ G3) as G3'.
      destruct (ri_run is G1 A1) as (sq & dq & R); [apply room_short; eauto|exact G2'|].
      eapply room_en; eauto; [|congruence]. specialize (G3 _ _ [] eq_refl Hv). exact G3.
  Qed.
  Lemma avm_accept is i : 2 < DEPTH -> let t1 := trace step s0 is in let t := trace step s0 (is ++ [i]) in
    Forall lens_ok t -> returns_ok t -> room_ok DEPTH t -> length (beats t1) = length (flat_map burst (aws t1)) ->
    v_arv i = true -> v_wait i = false -> (RP = false -> v_awv i && v_wv i = false) -> o_arrd (snd (step (final step s0 is) i)) = true.
  Proof.
    intros HD t1 t H1 H3 H4 Hb Hv Hw Hp. unfold t in *. rewrite trace_snoc in *. apply Forall_app in H1. destruct H1 as [H1 _].
    pose proof (returns_pre _ _ H3) as H3'. pose proof (room_pre _ _ _ H4) as H4'. fold t1 in H1, H3', H4'.
    destruct (ri_run is HD H1) as (sq & dq & R); [apply room_short; eauto|exact H3'|].
    destruct (wi_run is H1) as [done W]; [intros _; auto|]. destruct (rq_run is H1) as [_ Hl].
    assert (will_idle (final step s0 is) i = true) as Hi.
    { unfold will_idle. destruct (t_vld (final step s0 is)) eqn:Ev; [|reflexivity]. destruct (t_isw (final step s0 is)) eqn:Ei; [|rewrite Hw; reflexivity]. exfalso.
      pose proof (f_equal (@length _) (wi_beat _ _ _ W)) as E. pose proof (wi_aw _ _ _ W) as E2. fold t1 in E, E2. rewrite E2 in Hb.
      rewrite map_length, app_length, repeat_length in E. rewrite flat_map_app, app_length in Hb. unfold cur, part, is_w in *. rewrite Ev, Ei in *.
      cbn [andb flat_map burst] in *. rewrite app_nil_r, repeat_length in Hb. lia. }
    destruct (out_all RP DEPTH (final step s0 is) i) as (-> & _). rewrite Hi.
    eapply room_en; eauto. exact (H4 _ _ [] eq_refl Hv).
  Qed.
  (** C125 *)
  Lemma avm_writes is : let t := trace step s0 is in Forall lens_ok t -> guard t ->
    exists done open begun, aws t = done ++ open /\ length open <= 1 /\
      map fst (beats t) = flat_map burst done ++ begun /\ (exists rest, flat_map burst open = begun ++ rest /\ (open <> [] -> rest <> [])) /\
      map snd (beats t) = map fst (ws t) /\ (last_ok t -> bs t = map id_of done).
  Proof.
    intros t H G. destruct (wi_run is H G) as [done W]. fold t in W. set (s := final step s0 is) in *.
    exists done, (cur s), (repeat (t_addr s, t_olen s + 1) (part s)). split; [apply (wi_aw _ _ _ W)|]. split; [unfold cur; destruct (is_w s); cbn; lia|].
    split; [apply (wi_beat _ _ _ W)|]. split.
    - destruct (rq_run is H) as [_ Hl]. fold s in Hl. unfold cur, part. destruct (is_w s) eqn:Ew; [|exists []; split; [reflexivity|congruence]].
      unfold is_w in Ew. apply andb_prop in Ew. destruct (Hl (proj1 Ew)). exists (repeat (t_addr s, t_olen s + 1) (t_len s + 1)). split.
      + cbn [flat_map burst]. rewrite app_nil_r, <- repeat_app. f_equal. lia.
      + intros _. destruct (t_len s); discriminate.
    - split; [apply (wi_dat _ _ _ W)|]. intros Ho. apply (wi_last _ _ _ W Ho).
  Qed.
  Lemma avm_wprog is i : let t := trace step s0 is in Forall lens_ok t -> guard t -> v_wv i = true -> v_brd i = true -> v_wait i = false ->
    let o := snd (step (final step s0 is) i) in
    (length (beats t) < length (flat_map burst (aws t)) -> o_wrd o = true /\ o_write o = true) /\
    (length (beats t) = length (flat_map burst (aws t)) -> v_awv i = true -> (RP = true -> v_arv i = false) -> o_awrd o = true).
  Proof.
    intros t H G Hw Hb Hwt o. destruct (wi_run is H G) as [done W]. destruct (rq_run is H) as [_ Hl]. fold t in W. set (s := final step s0 is) in *.
    pose proof (f_equal (@length _) (wi_beat _ _ _ W)) as E. pose proof (wi_aw _ _ _ W) as E2. rewrite E2, flat_map_app, app_length.
    rewrite map_length, app_length, repeat_length in E.
    destruct (out_all RP DEPTH s i) as (_ & Oaw & Owr & _ & _ & _ & _ & _ & _ & _ & _ & _ & Ow & _). fold o in Oaw, Owr, Ow. rewrite Oaw, Owr, Ow.
    unfold cur, part in *. destruct (is_w s) eqn:Ew; cbn [flat_map length] in *.
    - split; [intros _; unfold w_go; rewrite Hw, Hb, Hwt, orb_true_r; auto|]. unfold burst at 2. rewrite app_nil_r, repeat_length.
      unfold is_w in Ew. apply andb_prop in Ew. destruct (Hl (proj1 Ew)). lia.
    - split; [lia|]. intros _ Hv Hr. unfold aw_en, will_idle, w_go. rewrite Hw, Hb, Hwt. unfold is_w in Ew.
      destruct RP; [rewrite Hr by reflexivity|]; destruct (t_vld s), (t_isw s); try discriminate Ew; reflexivity.
  Qed.
End Main.

(** a check of [returns_ok] by computation *)
Lemma returns_check {AD ID D M} (t : list (avm_in AD ID D M * avm_out AD ID D M)) :
  forallb (fun n => length (rets (firstn n t)) <=? total (map snd (reads (firstn n t)))) (seq 0 (S (length t))) = true -> returns_ok t.
Proof.
  intros H n. destruct (Nat.le_gt_cases n (length t)) as [Hn|Hn].
  - rewrite forallb_forall in H. specialize (H n). apply Nat.leb_le, H. apply in_seq. lia.
  - rewrite firstn_all2 by lia. rewrite forallb_forall in H. specialize (H (length t)). rewrite firstn_all in H. apply Nat.leb_le, H. apply in_seq. lia.
Qed.
Lemma all_check {X} (f : X -> bool) (P : X -> Prop) (t : list X) : (forall x, f x = true -> P x) -> forallb f t = true -> Forall P t.
Proof. intros H E. rewrite forallb_forall in E. apply Forall_forall. auto. Qed.
Lemma lens_check {AD ID D M} (t : list (avm_in AD ID D M * avm_out AD ID D M)) :
  forallb (fun c => (v_arl (fst c) <? 256) && (v_awl (fst c) <? 256)) t = true -> Forall lens_ok t.
Proof. apply all_check. intros c E. apply andb_prop in E. destruct E. split; apply Nat.ltb_lt; assumption. Qed.
Lemma room_check {AD ID D M} dp (t : list (avm_in AD ID D M * avm_out AD ID D M)) :
  forallb (fun n => match nth_error t n with
    | Some c => negb (v_arv (fst c)) || (length (flat_map answer (ars (firstn n t))) + v_arl (fst c) + 1 <=? length (rs (firstn n t)) + dp)
    | None => true end) (seq 0 (length t)) = true -> room_ok dp t.
Proof.
  intros H t1 c t2 E Hv. rewrite forallb_forall in H. specialize (H (length t1)). subst t.
  rewrite nth_error_app2, Nat.sub_diag, firstn_app, firstn_all, Nat.sub_diag, app_nil_r in H by lia. cbn [nth_error] in H. rewrite Hv in H.
  apply Nat.leb_le, H, in_seq. rewrite app_length. cbn. lia.
Qed.
