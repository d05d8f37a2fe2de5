From Verif Require Import Base BaseFacts CuckooModel CuckooSpec CuckooProofs.
From Coq Require Import NArith.

Section Live.
  Context {D : Type}.
  Variables (TC SZ MR ML : nat) (hash : nat -> N -> nat).
  Hypothesis HTC : 0 < TC.
  Hypothesis HSZ : 0 < SZ.
  Hypothesis HMR : 0 < MR.
  Hypothesis HML : ML - 1 < 2 ^ log2ceil (ML - 1).
  Hypothesis Hhash : forall j k, j < TC -> hash j k < SZ.
  Notation step := (@cu_step D TC SZ MR ML hash).
  Notation Inv := (@Inv D TC SZ MR ML hash).

  Definition mu (s : cu_st D) : nat :=
    let ins := is_orig (sh_orig (cu_stash s)) OInsert in
    let c := sh_cntr (cu_stash s) in
    match cu_fsm s with
    | CIdle => 0
    | CCleaning => SZ - cu_addr s
    | CLookup => if ins then 3 * c + 1 else 3
    | CWaitRd => if ins then 3 * c else 2
    | CAck => if ins then 3 * c - 1 else 1
    end.
  Definition done (s : cu_st D) : Prop := cu_fsm s = CIdle /\ lnip s = true.
  Lemma busy_step s p i : Inv s p -> cu_fsm s <> CIdle -> tables_ready TC i -> ui_irr i = true ->
    let s' := fst (step s i) in let x := (i, snd (step s i)) in
    (done s' /\ (sp_ins p <> None -> g_ins x <> None)) \/ (cu_fsm s' <> CIdle /\ mu s' < mu s /\ g_ins x = None).
  Proof.
    intros HI Hf [Hl Hv] Hr. assert (forallb (t_lrd i) (tbl TC) = true) as El by (apply (forallb_tbl' TC SZ MR ML hash HTC HSZ HMR HML Hhash), Hl).
    unfold CuckooProofs.Inv in HI. destruct (cu_fsm s) eqn:Ef; [congruence| | | |].
    - destruct HI as [Hp [Hq [Ho [_ [Hi [_ [_ [Ha _]]]]]]]]. destruct s as [mem q shown fsm [k d c v o] tgt fin addr prog].
      cbn [cu_mem cu_q cu_shown cu_fsm cu_stash cu_tgt cu_fin cu_addr cu_prog sh_orig sh_cntr] in *. subst fsm q prog o.
      cbv zeta. unfold done, lnip, mu, g_ins, cu_step. cbn -[log2ceil Nat.sub]. rewrite Hr. destruct (Nat.eqb_spec addr (SZ - 1)).
      + left. split; [split; reflexivity|]. rewrite Hi. congruence.
      + right. split; [discriminate|]. split; [|reflexivity]. cbn -[Nat.sub]. lia.
    - destruct HI as [C [[Ha [Hp [_ [_ Ho]]]] [_ [Hq _]]]]. destruct s as [mem q shown fsm [k d c v o] tgt fin addr prog]. unfold op_ok in Ho.
      cbn [cu_mem cu_q cu_shown cu_fsm cu_stash cu_tgt cu_fin cu_addr cu_prog sh_orig sh_cntr sh_key sh_data sh_vld] in *. subst fsm q prog addr.
      cbv zeta. unfold done, lnip, mu, g_ins, cu_step. cbn -[log2ceil Nat.sub tbl forallb Nat.mul]. rewrite Hr, El. destruct o; [|destruct Ho|].
      + destruct (Nat.eqb_spec c 0).
        * left. cbn. split; [split; reflexivity|discriminate].
        * right. cbn -[Nat.mul]. split; [discriminate|]. split; [lia|reflexivity].
      + right. cbn. rewrite ?orb_true_r, ?andb_false_r. cbn. split; [discriminate|]. split; [lia|reflexivity].
    - destruct HI as [C [r [[Ha [Hp [_ [_ Ho]]]] [Hpos [Hq _]]]]]. destruct s as [mem q shown fsm [k d c v o] tgt fin addr prog]. unfold op_ok in Ho. unfold pos in Hpos.
      cbn [cu_mem cu_q cu_shown cu_fsm cu_stash cu_tgt cu_fin cu_addr cu_prog sh_orig sh_cntr sh_key sh_data sh_vld] in *. subst fsm q prog addr.
      assert (forallb (fun j => t_rv i j || shown j) (tbl TC) = true) as Ev by (apply (forallb_tbl' TC SZ MR ML hash HTC HSZ HMR HML Hhash); intros j Hj; rewrite (Hv j Hj); reflexivity).
      cbv zeta. unfold done, lnip, mu, g_ins, cu_step. cbn -[log2ceil Nat.sub tbl forallb Nat.mul]. rewrite Hr, Ev. cbn -[log2ceil Nat.sub tbl forallb Nat.mul]. right. split; [discriminate|]. split; [|reflexivity].
      destruct o; [specialize (Hpos eq_refl)|destruct Ho|]; cbn -[Nat.mul]; lia.
    - destruct HI as [C [r [j [[Ha [Hp [_ [_ Ho]]]] [Hpos [Hq [Hh [Hsh _]]]]]]]]. destruct s as [mem q shown fsm [k d c v o] tgt fin addr prog]. unfold op_ok in Ho. unfold pos in Hpos.
      cbn [cu_mem cu_q cu_shown cu_fsm cu_stash cu_tgt cu_fin cu_addr cu_prog sh_orig sh_cntr sh_key sh_data sh_vld] in *. subst fsm q prog addr.
      assert (forallb (fun j => t_rv i j || shown j) (tbl TC) = true) as Ev by (apply (forallb_tbl' TC SZ MR ML hash HTC HSZ HMR HML Hhash); intros j' Hj; rewrite (Hv j' Hj); reflexivity).
      pose proof (hot_first TC SZ MR ML hash HTC HSZ HMR HML Hhash _ _ Hh) as Hft.
      cbv zeta. unfold done, lnip, mu, g_ins, cu_step. cbn -[log2ceil Nat.sub tbl forallb Nat.mul wdec]. rewrite ?Hr, ?Hft. destruct o; [specialize (Hpos eq_refl)|destruct Ho|].
      + destruct fin; cbn -[log2ceil Nat.sub Nat.mul wdec]; [left; split; [split; reflexivity|discriminate]|right]. split; [discriminate|]. split; [|reflexivity].
        rewrite wdec_pos; [lia|exact Hpos|]. destruct Ho as [_ [Hc _]].
        apply Nat.le_lt_trans with MR; [exact Hc|]. unfold CW, log2ceil. destruct (Nat.leb_spec (MR + 1) 1); [lia|]. destruct (Nat.log2_up_spec (MR + 1) ltac:(lia)). lia.
      + left. rewrite ?andb_false_r. cbn. split; [split; reflexivity|]. destruct Ho as [_ [Hi _]]. rewrite Hi. congruence.
  Qed.

  Lemma no_del s i : cu_fsm s <> CIdle -> a_del (i, snd (step s i)) = None.
  Proof. intros H. unfold a_del, cu_step. cbn. destruct (cu_fsm s); [congruence| | | |]; reflexivity. Qed.
  Lemma same_ins s p i : cu_fsm s <> CIdle -> g_ins (i, snd (step s i)) = None -> sp_ins (sp_next p (i, snd (step s i))) = sp_ins p.
  Proof.
    intros H G. unfold sp_next. rewrite G, (no_del s i H).
    assert (a_ins (i, snd (step s i)) = None) as -> by (unfold a_ins, cu_step; cbn; destruct (cu_fsm s); [congruence| | | |]; reflexivity).
    destruct (a_clean _); reflexivity.
  Qed.
  Lemma done_rd s i : done s -> uo_crd (snd (step s i)) = true.
  Proof. intros [H1 H2]. unfold cu_step. cbn [snd uo_crd]. fold (lnip s). rewrite H1, H2. reflexivity. Qed.
  Lemma finish is : forall s p, Inv s p -> cu_fsm s <> CIdle -> Forall (fun i => tables_ready TC i /\ ui_irr i = true) is -> mu s < length is ->
    exists t1 x t2, trace step s is = t1 ++ x :: t2 /\ length t1 <= mu s /\ uo_crd (snd x) = true /\ (sp_ins p <> None -> exists y, In y t1 /\ g_ins y <> None).
  Proof.
    induction is as [|i is IH]; intros s p HI Hf HF Hlen; [cbn in Hlen; lia|]. inversion_clear HF as [|? ? [F1 F2] F3]. rewrite trace_cons. cbn [length] in Hlen.
    assert (0 < mu s) as Hpos.
    { unfold mu. unfold CuckooProofs.Inv in HI. destruct (cu_fsm s) eqn:E; [congruence| | | |].
      - destruct HI as [_ [_ [_ [_ [_ [_ [_ [Q _]]]]]]]]. lia.
      - destruct (is_orig _ _); lia.
      - destruct HI as [C [r [_ [Q _]]]]. unfold pos in Q. destruct (sh_orig _); cbn [is_orig]; [specialize (Q eq_refl)| |]; lia.
      - destruct HI as [C [r [j [_ [Q _]]]]]. unfold pos in Q. destruct (sh_orig _); cbn [is_orig]; [specialize (Q eq_refl)| |]; lia. }
    destruct (busy_step s p i HI Hf F1 F2) as [[Hd Hi]|[Hf' [Hmu Hg]]].
    - destruct is as [|i2 is]; [cbn in Hlen; lia|]. rewrite trace_cons. exists [(i, snd (step s i))], (i2, snd (step (fst (step s i)) i2)), (trace step (fst (step (fst (step s i)) i2)) is).
      split; [reflexivity|]. split; [exact Hpos|]. split; [apply done_rd, Hd|]. intros Q. exists (i, snd (step s i)). split; [left; reflexivity|apply Hi, Q].
    - assert (forall k, let x := (i, snd (step s i)) in a_clean x = false -> a_del x = Some k -> sp_map p k <> None) as Hd by (intros k x0 _; unfold x0; rewrite (no_del s i Hf); discriminate).
      destruct (step_any TC SZ MR ML hash HTC HSZ HMR HML Hhash s p i HI Hd) as [_ HI'].
      destruct (IH _ _ HI' Hf' F3 ltac:(lia)) as [t1 [xx [t2 [E [Hn [Hc Hs]]]]]]. exists ((i, snd (step s i)) :: t1), xx, t2. split; [rewrite E; reflexivity|]. split; [cbn; lia|]. split; [exact Hc|].
      rewrite (same_ins s p i Hf Hg) in Hs. intros Q. destruct (Hs Q) as [y [Y1 Y2]]. exists y. split; [right; exact Y1|exact Y2].
  Qed.

  Lemma cmd_mu s p i : Inv s p -> let x := (i, snd (step s i)) in a_clean x = true \/ a_del x <> None \/ a_ins x <> None ->
    cu_fsm (fst (step s i)) <> CIdle /\ mu (fst (step s i)) <= Nat.max SZ (3 * MR + 1).
  Proof.
    intros HI x Hx. assert (cu_fsm s = CIdle /\ lnip s = true) as [Ef Hl].
    { unfold x, a_clean, a_del, a_ins, cu_step in Hx. cbn [fst snd uo_crd uo_drd uo_ird] in Hx. fold (lnip s) in Hx. destruct (lnip s) eqn:E; [|rewrite !andb_false_r in Hx; destruct Hx as [Q|[Q|Q]]; congruence].
      destruct (cu_fsm s); [auto| | | |]; cbn [is_fsm andb] in Hx; rewrite andb_false_r in Hx; destruct Hx as [Q|[Q|Q]]; congruence. }
    unfold CuckooProofs.Inv in HI. rewrite Ef in HI. destruct HI as [Ha _].
    destruct s as [mem q shown fsm [k d c v o] tgt fin addr prog]. unfold lnip in Hl.
    cbn [cu_mem cu_q cu_shown cu_fsm cu_stash cu_tgt cu_fin cu_addr cu_prog sh_orig sh_cntr sh_key sh_data sh_vld] in *. subst fsm addr.
    unfold x, a_clean, a_del, a_ins, mu, cu_step in *. cbn [cu_mem cu_q cu_shown cu_fsm cu_stash cu_tgt cu_fin cu_addr cu_prog sh_orig sh_cntr sh_key sh_data sh_vld fst snd uo_crd uo_drd uo_ird is_fsm andb orb] in *.
    rewrite Hl in *. destruct (ui_clean i); cbn [andb negb] in *.
    - cbn [cu_fsm cu_stash sh_orig is_orig cu_addr]. split; [discriminate|]. lia.
    - destruct (ui_del i) as [kd|]; cbn [is_some andb negb orb] in *.
      + rewrite orb_true_r. cbn [cu_fsm cu_stash sh_orig is_orig cu_addr]. split; [discriminate|]. lia.
      + destruct (ui_ins i) as [[ki di]|]; cbn [is_some andb negb orb] in *; [|destruct Hx as [Q|[Q|Q]]; congruence].
        cbn [cu_fsm cu_stash sh_orig is_orig cu_addr sh_cntr]. split; [discriminate|]. lia.
  Qed.

  Lemma cu_live m k d c v tgt f is1 i is2 j is3 :
    let s1 := final step (cu_init m k d c v tgt f) is1 in
    a_clean (i, snd (step s1 i)) = true ->
    let s2 := final step (fst (step s1 i)) is2 in let x := (j, snd (step s2 j)) in
    dels_ok sp0 (trace step (fst (step s1 i)) (is2 ++ [j])) -> a_clean x = true \/ a_del x <> None \/ a_ins x <> None ->
    Forall (fun i => tables_ready TC i /\ ui_irr i = true) is3 -> Nat.max SZ (3 * MR + 1) < length is3 ->
    exists t1 y t2, trace step (fst (step s2 j)) is3 = t1 ++ y :: t2 /\ length t1 <= Nat.max SZ (3 * MR + 1) /\ uo_crd (snd y) = true /\
      (a_clean x = false -> a_del x = None -> a_ins x <> None -> exists z, In z t1 /\ g_ins z <> None).
  Proof.
    intros s1 Hc s2 x Hd Hx HF Hlen.
    pose proof (clean_start TC SZ MR ML hash HTC HSZ HMR HML Hhash s1 i (J_run TC SZ MR ML hash HTC HSZ HMR HML Hhash is1 m k d c v tgt f) Hc) as H0.
    rewrite trace_app in Hd. cbn [trace outs] in Hd.
    assert (forall t t' p, dels_ok p (t ++ t') -> dels_ok (D := D) p t /\ dels_ok (fold_left sp_next t p) t') as Happ.
    { induction t as [|y t IH]; intros t' p; cbn [app dels_ok fold_left]; [auto|]. intros [Q1 Q2]. destruct (IH _ _ Q2). auto. }
    apply Happ in Hd. destruct Hd as [Hd1 Hd2].
    destruct (cu_run TC SZ MR ML hash HTC HSZ HMR HML Hhash is2 _ _ H0 Hd1) as [_ H2]. fold s2 in H2, Hd2. rewrite trace_cons in Hd2. destruct Hd2 as [Hd2 _]. cbn [fst] in Hd2.
    destruct (cmd_mu s2 _ j H2 Hx) as [M1 M2].
    destruct (step_any TC SZ MR ML hash HTC HSZ HMR HML Hhash s2 _ j H2 Hd2) as [_ H3].
    destruct (finish is3 _ _ H3 M1 HF ltac:(lia)) as [t1 [y [t2 [E [Hn [Hr Hs]]]]]]. exists t1, y, t2. split; [exact E|]. split; [lia|]. split; [exact Hr|].
    intros X1 X2 X3. apply Hs. unfold sp_next. fold x. rewrite X1, X2. destruct (a_ins x); [discriminate|congruence].
  Qed.
End Live.
