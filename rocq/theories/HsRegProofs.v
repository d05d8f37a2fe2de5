From Verif Require Import Base BaseFacts StreamSpec StreamFacts HsRegModel HsRegSpec.

Section P.
  Context {A : Type}.

  (** Words inside a chain, oldest first. *)
  Fixpoint contents (ss : list (stage A)) : list A :=
    match ss with
    | [] => []
    | s :: ss' => contents ss' ++ (if occ s then [sdat s] else [])
    end.

  Definition opt (b : bool) (x : A) : list A := if b then [x] else [].

  Lemma stage_law s iv (d : A) rd :
    opt (occ s) (sdat s) ++ opt (iv && stage_rd s rd) d =
    opt (occ s && rd) (sdat s) ++ opt (occ (stage_next s iv d rd)) (sdat (stage_next s iv d rd)).
  Proof. destruct s as [[] [] x], iv, rd; reflexivity. Qed.

  Lemma chain_law ss iv (d : A) rd :
    let '(ss', (ird, ov, od)) := chain_step ss iv d rd in
    contents ss ++ opt (iv && ird) d = opt (ov && rd) od ++ contents ss'.
  Proof.
    revert iv d. induction ss as [|s ss IH]; intros iv d; cbn [chain_step].
    - simpl. rewrite app_nil_r. reflexivity.
    - specialize (IH (occ s) (sdat s)).
      destruct (chain_step ss (occ s) (sdat s) rd) as [ss1 [[rd1 ov] od]].
      cbn [contents].
      rewrite <- app_assoc.
      fold (opt (occ s) (sdat s)). rewrite stage_law, !app_assoc. rewrite IH.
      reflexivity.
  Qed.

  Lemma chain_len ss iv (d : A) rd :
    length (fst (chain_step ss iv d rd)) = length ss.
  Proof.
    revert iv d. induction ss as [|s ss IH]; intros iv d; cbn [chain_step]; [reflexivity|].
    specialize (IH (occ s) (sdat s)).
    destruct (chain_step ss (occ s) (sdat s) rd) as [ss1 [[rd1 ov] od]]. simpl in *. lia.
  Qed.

  Lemma contents_len ss : length (contents ss) <= length ss.
  Proof.
    induction ss as [|s ss IH]; simpl; [lia|]. rewrite app_length.
    destruct (occ s); simpl; lia.
  Qed.

  (** dataOut.vld / dataOut.data are the occupancy and content of the last stage. *)
  Lemma chain_out ss iv (d : A) rd s0 :
    ss <> [] ->
    let '(_, (_, ov, od)) := chain_step ss iv d rd in
    ov = occ (last ss s0) /\ od = sdat (last ss s0).
  Proof.
    revert iv d. induction ss as [|s ss IH]; intros iv d H; [congruence|]. cbn [chain_step].
    specialize (IH (occ s) (sdat s)).
    destruct ss as [|s1 ss].
    - simpl. auto.
    - destruct (chain_step (s1 :: ss) (occ s) (sdat s) rd) as [ss1 [[rd1 ov] od]].
      apply IH. discriminate.
  Qed.

  Lemma chain_next_last ss iv (d : A) s0 :
    ss <> [] -> occ (last ss s0) = true ->
    last (fst (chain_step ss iv d false)) s0 = last ss s0.
  Proof.
    revert iv d. induction ss as [|s ss IH]; intros iv d H Ho; [congruence|]. cbn [chain_step].
    specialize (IH (occ s) (sdat s)).
    destruct ss as [|s1 ss].
    - simpl in *. destruct s as [[] o x]; simpl in *; subst o;
        unfold stage_next; cbn; rewrite ?andb_false_r; reflexivity.
    - pose proof (chain_len (s1 :: ss) (occ s) (sdat s) false) as Hlen.
      destruct (chain_step (s1 :: ss) (occ s) (sdat s) false) as [ss1 [[rd1 ov] od]].
      cbn [fst] in *. destruct ss1 as [|s2 ss1]; [simpl in Hlen; lia|].
      transitivity (last (s2 :: ss1) s0); [reflexivity|].
      rewrite IH; [reflexivity|discriminate|exact Ho].
  Qed.

  (** Ready chain break. *)
  Definition bcontents (s : brk A) : list A :=
    match oc0 s, oc1 s with
    | false, false => []
    | true, false => [br0 s]
    | false, true => [br1 s]
    | true, true => if prio s then [br1 s; br0 s] else [br0 s; br1 s]
    end.

  Lemma brk_law x s iv (d : A) rd :
    let '(s', (ird, ov, od)) := brk_step x s iv d rd in
    bcontents s ++ opt (iv && ird) d = opt (ov && rd) od ++ bcontents s'.
  Proof. destruct s as [[] [] [] a b], iv, rd; reflexivity. Qed.

  Lemma brk_stable x s iv (d : A) :
    let '(s', (_, ov, od)) := brk_step x s iv d false in
    ov = true -> forall iv' d' rd',
      let '(_, (_, ov', od')) := brk_step x s' iv' d' rd' in ov' = true /\ od' = od.
  Proof.
    destruct s as [[] [] [] a b], iv; cbn; intros H iv' d' rd'; try discriminate; split; reflexivity.
  Qed.

  (** All configurations together. *)
  Definition rcontents (s : hsreg A) : list A :=
    match s with RChain ss => contents ss | RBreak b => bcontents b end.
  Definition rcap (s : hsreg A) : nat :=
    match s with RChain ss => length ss | RBreak _ => 2 end.
  Definition rok (s : hsreg A) : Prop :=
    match s with RChain ss => ss <> [] | RBreak _ => True end.

  Lemma rcontents_len s : length (rcontents s) <= rcap s.
  Proof.
    destruct s as [ss|b]; [apply contents_len|].
    destruct b as [[] [] [] a b]; cbn; lia.
  Qed.

  Lemma hsreg_law x s i :
    let s' := fst (hsreg_step x s i) in
    let o := snd (hsreg_step x s i) in
    rcontents s ++ opt (ri_vld i && ro_rd o) (ri_data i) =
      opt (ro_vld o && ri_rd i) (ro_data o) ++ rcontents s' /\
    rcap s' = rcap s /\ (rok s -> rok s').
  Proof.
    destruct s as [ss|b]; cbn [hsreg_step].
    - pose proof (chain_law ss (ri_vld i) (ri_data i) (ri_rd i)) as L.
      pose proof (chain_len ss (ri_vld i) (ri_data i) (ri_rd i)) as Hl.
      destruct (chain_step ss (ri_vld i) (ri_data i) (ri_rd i)) as [ss' [[rd v] d]].
      simpl in *. split; [exact L|]. split; [exact Hl|].
      destruct ss, ss'; simpl in *; try congruence; lia.
    - pose proof (brk_law x b (ri_vld i) (ri_data i) (ri_rd i)) as L.
      destruct (brk_step x b (ri_vld i) (ri_data i) (ri_rd i)) as [b' [[rd v] d]].
      simpl in *. auto.
  Qed.

  Lemma hsreg_stable1 x s i :
    rok s -> ri_rd i = false -> ro_vld (snd (hsreg_step x s i)) = true ->
    forall j, let o' := snd (hsreg_step x (fst (hsreg_step x s i)) j) in
      ro_vld o' = true /\ ro_data o' = ro_data (snd (hsreg_step x s i)).
  Proof.
    intros Hok Hrd Hv j. destruct s as [ss|b]; cbn [hsreg_step] in *.
    - rewrite Hrd in *. cbn in Hok.
      set (s0 := mk_stage KLat false x).
      pose proof (chain_out ss (ri_vld i) (ri_data i) false s0 Hok) as Ho.
      pose proof (chain_next_last ss (ri_vld i) (ri_data i) s0 Hok) as Hn.
      pose proof (chain_len ss (ri_vld i) (ri_data i) false) as Hl.
      destruct (chain_step ss (ri_vld i) (ri_data i) false) as [ss' [[rd v] d]].
      cbn [fst snd ro_vld ro_data] in *. destruct Ho as [-> ->].
      specialize (Hn Hv). cbn [hsreg_step].
      assert (ss' <> []) as Hok' by (destruct ss, ss'; simpl in *; try congruence; lia).
      pose proof (chain_out ss' (ri_vld j) (ri_data j) (ri_rd j) s0 Hok') as Ho'.
      destruct (chain_step ss' (ri_vld j) (ri_data j) (ri_rd j)) as [ss2 [[rd2 v2] d2]].
      cbn. destruct Ho' as [-> ->]. rewrite Hn. auto.
    - rewrite Hrd in *.
      pose proof (brk_stable x b (ri_vld i) (ri_data i)) as L.
      destruct (brk_step x b (ri_vld i) (ri_data i) false) as [b' [[rd v] d]].
      cbn [fst snd ro_vld ro_data] in *.
      specialize (L Hv (ri_vld j) (ri_data j) (ri_rd j)). cbn [hsreg_step].
      destruct (brk_step x b' (ri_vld j) (ri_data j) (ri_rd j)) as [b2 [[rd2 v2] d2]].
      cbn. exact L.
  Qed.

  Definition rtrace (x : A) (s : hsreg A) (is : list (hsr_in A)) : list (hs_cycle A A) := map hsr_obs (trace (hsreg_step x) s is).

  Lemma hsreg_run x s is :
    rok s ->
    (rok (final (hsreg_step x) s is) /\ rcap (final (hsreg_step x) s is) = rcap s) /\
    rcontents s ++ accepted (rtrace x s is) =
      delivered (rtrace x s is) ++ rcontents (final (hsreg_step x) s is).
  Proof.
    intros Hok.
    apply (queue_run (hsreg_step x) hsr_obs (fun s1 => rok s1 /\ rcap s1 = rcap s) rcontents); auto.
    intros s1 i [H1 H2]. destruct (hsreg_law x s1 i) as [L [C H3]].
    split; [split; [auto|congruence]|exact L].
  Qed.

  Lemma hsreg_stable x s is : rok s -> out_stable (rtrace x s is).
  Proof.
    intros Hok. apply (stable_run (hsreg_step x) hsr_obs rok rcontents); auto.
    - intros s1 i H1. destruct (hsreg_law x s1 i) as [L [C H3]]. split; [auto|exact L].
    - intros s1 i j H1 H2 H3. cbn in *. apply hsreg_stable1; assumption.
  Qed.

  (** Latency with an always ready consumer. *)
  Definition cstep (ss : list (stage A)) (i : hsr_in A) : list (stage A) * hsr_out A :=
    let '(ss', (rd, v, d)) := chain_step ss (ri_vld i) (ri_data i) (ri_rd i) in
    (ss', mk_hro rd v d).

  Fixpoint mid (s : stage A) (js : list (hsr_in A)) : list (hsr_in A) :=
    match js with
    | [] => []
    | j :: js' => mk_hri (occ s) (sdat s) true :: mid (stage_next s (ri_vld j) (ri_data j) true) js'
    end.

  Lemma chain_all_ready ss iv (d : A) :
    Forall (fun s => sk s = KLat) ss ->
    let '(ss', (rd, _, _)) := chain_step ss iv d true in
    rd = true /\ Forall (fun s => sk s = KLat) ss'.
  Proof.
    revert iv d. induction ss as [|s ss IH]; intros iv d H; cbn [chain_step]; [auto|].
    inversion H as [|? ? H1 H2]; subst.
    specialize (IH (occ s) (sdat s) H2).
    destruct (chain_step ss (occ s) (sdat s) true) as [ss1 [[rd1 ov] od]].
    destruct IH as [-> IH]. split.
    - unfold stage_rd. rewrite H1. destruct (occ s); reflexivity.
    - constructor; [|exact IH]. unfold stage_next. rewrite H1. reflexivity.
  Qed.

  Definition vd (o : hsr_out A) : bool * A := (ro_vld o, ro_data o).

  Lemma chain_peel s ss js :
    Forall (fun s => sk s = KLat) (s :: ss) ->
    (forall j, In j js -> ri_rd j = true) ->
    map vd (outs cstep (s :: ss) js) = map vd (outs cstep ss (mid s js)).
  Proof.
    revert s ss. induction js as [|j js IH]; intros s ss HF Hrd; [reflexivity|].
    cbn [mid]. rewrite !outs_cons. cbn [map].
    inversion HF as [|? ? H1 H2]; subst.
    pose proof (chain_all_ready ss (occ s) (sdat s) H2) as Hall.
    destruct (chain_step ss (occ s) (sdat s) true) as [ss1 [[rd1 ov] od]] eqn:Ec.
    destruct Hall as [-> Hall].
    assert (cstep (s :: ss) j =
      (stage_next s (ri_vld j) (ri_data j) true :: ss1, mk_hro (stage_rd s true) ov od)) as E1.
    { unfold cstep. cbn [chain_step]. rewrite (Hrd j (or_introl eq_refl)), Ec. reflexivity. }
    assert (cstep ss (mk_hri (occ s) (sdat s) true) = (ss1, mk_hro true ov od)) as E2.
    { unfold cstep. cbn [ri_vld ri_data ri_rd]. rewrite Ec. reflexivity. }
    rewrite E1, E2. cbn [fst snd vd ro_vld ro_data]. f_equal. apply IH.
    - constructor; [|exact Hall]. unfold stage_next. rewrite H1. reflexivity.
    - intros k Hk. apply Hrd. right. exact Hk.
  Qed.

  Lemma mid_rd s js j : In j (mid s js) -> ri_rd j = true.
  Proof.
    revert s. induction js as [|i js IH]; intros s; simpl; [tauto|].
    intros [<-|H]; [reflexivity|]. eapply IH, H.
  Qed.

  Lemma mid_nth s js k i :
    sk s = KLat -> nth_error js k = Some i -> S k < length js ->
    exists m, nth_error (mid s js) (S k) = Some m /\ ri_vld m = ri_vld i /\
      (ri_vld i = true -> ri_data m = ri_data i).
  Proof.
    revert s k. induction js as [|j js IH]; intros s k Hs Hk Hl; [destruct k; discriminate|].
    cbn [mid]. simpl in Hl. destruct k as [|k].
    - simpl in Hk. injection Hk as ->. destruct js as [|j2 js]; [simpl in Hl; lia|].
      cbn [nth_error mid]. eexists. split; [reflexivity|]. cbn [ri_vld ri_data].
      unfold stage_next. rewrite Hs. cbn [occ sdat].
      destruct (occ s), (ri_vld i); cbn; split; congruence.
    - simpl in Hk. apply (IH _ k); [unfold stage_next; rewrite Hs; reflexivity|exact Hk|lia].
  Qed.

  Lemma mid_len s js : length (mid s js) = length js.
  Proof. revert s. induction js as [|j js IH]; intros s; simpl; congruence. Qed.

  Lemma chain_latency ss js k i :
    Forall (fun s => sk s = KLat) ss ->
    (forall j, In j js -> ri_rd j = true) ->
    nth_error js k = Some i -> k + length ss < length js ->
    exists o, nth_error (outs cstep ss js) (k + length ss) = Some o /\
      ro_vld o = ri_vld i /\ (ri_vld i = true -> ro_data o = ri_data i).
  Proof.
    revert js k i. induction ss as [|s ss IH]; intros js k i HF Hrd Hk Hl.
    - simpl in *. rewrite Nat.add_0_r in *.
      clear Hl HF. revert js Hrd Hk. induction k as [|k IHk]; intros [|j js] Hrd Hk; try discriminate.
      + simpl in Hk. injection Hk as ->. rewrite outs_cons. eexists. split; [reflexivity|]. cbn. auto.
      + rewrite outs_cons. cbn [nth_error cstep chain_step fst].
        apply IHk; [intros x Hx; apply Hrd; right; exact Hx|exact Hk].
    - inversion HF as [|? ? H1 H2]; subst. simpl in Hl.
      destruct (mid_nth s js k i H1 Hk) as [m [Hm [Ev Ed]]]; [lia|].
      destruct (IH (mid s js) (S k) m H2) as [o [Ho [Ev' Ed']]].
      + intros j Hj. eapply mid_rd, Hj.
      + exact Hm.
      + rewrite mid_len. lia.
      + pose proof (chain_peel s ss js HF Hrd) as Hp.
        apply (f_equal (fun l => nth_error l (S k + length ss))) in Hp.
        rewrite !nth_error_map, Ho in Hp. cbn [option_map] in Hp.
        replace (k + length (s :: ss)) with (S k + length ss) by (simpl; lia).
        destruct (nth_error (outs cstep (s :: ss) js) (S k + length ss)) as [o'|] eqn:Eo'; [|discriminate Hp].
        cbn [option_map vd] in Hp. injection Hp as Hv Hd. exists o'. split; [reflexivity|].
        split; [congruence|]. intros H. rewrite Hd. rewrite Ed' by congruence. auto.
  Qed.

  Lemma hsreg_outs_chain x ss js :
    outs (hsreg_step x) (RChain ss) js = outs cstep ss js.
  Proof.
    revert ss. induction js as [|j js IH]; intros ss; [reflexivity|].
    rewrite !outs_cons.
    destruct (chain_step ss (ri_vld j) (ri_data j) (ri_rd j)) as [ss' [[rd v] d]] eqn:Ec.
    assert (hsreg_step x (RChain ss) j = (RChain ss', mk_hro rd v d)) as ->
      by (unfold hsreg_step; rewrite Ec; reflexivity).
    assert (cstep ss j = (ss', mk_hro rd v d)) as -> by (unfold cstep; rewrite Ec; reflexivity).
    cbn [fst snd]. f_equal. apply IH.
  Qed.
End P.
