From Verif Require Import Base BaseFacts StreamSpec StreamFacts FifoModel FifoSpec FifoProofs.

Section HsFifo.
  Context {A : Type}.
  Variable DEPTH : nat.
  Hypothesis HD2 : 2 <= DEPTH.
  Let D := DEPTH - 1.
  Notation step := (hsf_step (A := A) DEPTH).

  Definition HRep (s : hsf_st A) (q : list A) : Prop :=
    exists qi, Rep D (hf s) qi /\ q = (if ovld s then dreg (hf s) :: qi else qi).

  Lemma HD1 : 0 < D. Proof. unfold D. lia. Qed.

  Lemma hrep_len s q : HRep s q -> length q <= DEPTH.
  Proof.
    intros [qi [R ->]]. pose proof (rep_len _ _ _ R). unfold D in *.
    destruct (ovld s); simpl; lia.
  Qed.

  Definition init_ok (init : list A) : Prop :=
    length init < D \/ (DEPTH = 2 /\ length init <= DEPTH).

  Lemma hrep_init init m0 d0 : init_ok init -> HRep (hsf_init DEPTH init m0 d0) init.
  Proof.
    intros H. unfold hsf_init, HRep, inner_depth. fold D.
    destruct (Nat.eqb_spec (length init) DEPTH) as [E|E].
    - exists (tl init). cbn [hf ovld]. split.
      + apply rep_init; [apply HD1|]. right.
        unfold init_ok, D in *. destruct init; simpl in *; lia.
      + unfold fifo_init. cbn [dreg]. destruct init; simpl in *; [lia|reflexivity].
    - exists init. cbn [hf ovld]. split; [|reflexivity].
      apply rep_init; [apply HD1|]. unfold init_ok, D in *. lia.
  Qed.

  Lemma step_out s i :
    snd (step s i) =
      mk_hout (negb (f_wwait (hf s))) (ovld s) (dreg (hf s))
        (if ovld s then winc (hs_size_w DEPTH) (size_r (hf s)) else size_r (hf s))
        (if ovld s then space_r (hf s) else winc (hs_size_w DEPTH) (space_r (hf s))).
  Proof. unfold hsf_step. destruct (fifo_step _ _ _). reflexivity. Qed.

  Lemma hs_size_inc n : n <= D -> winc (hs_size_w DEPTH) n = n + 1.
  Proof.
    intros. apply winc_small. unfold hs_size_w. pose proof (log2ceil_ge (DEPTH + 1 + 1)).
    unfold D in *. lia.
  Qed.

  Lemma hrep_step s q i :
    HRep s q ->
    let o := snd (step s i) in
    let acc := i_vld i && h_rd o in
    let del := h_vld o && i_rd i in
    HRep (fst (step s i)) ((if del then tl q else q) ++ (if acc then [i_data i] else [])) /\
    (h_vld o = true -> exists q', q = h_data o :: q') /\
    (h_vld o = true -> i_rd i = false ->
       ovld (fst (step s i)) = true /\ dreg (hf (fst (step s i))) = h_data o) /\
    (length q < DEPTH - 1 -> h_rd o = true) /\
    h_size o = length q /\ h_space o = DEPTH - length q /\
    (h_vld o = false -> q <> [] -> ovld (fst (step s i)) = true) /\
    (h_vld o = true -> i_rd i = true -> tl q <> [] -> ovld (fst (step s i)) = true).
  Proof.
    intros [qi [R Eq]] o acc del. pose proof HD1 as HD.
    assert (Eo := step_out s i). fold o in Eo.
    assert (h_rd o = negb (length qi =? D)) as Erd.
    { rewrite Eo. cbn. rewrite (rep_wwait _ HD _ _ R). reflexivity. }
    assert (h_vld o = ovld s) as Evld by (rewrite Eo; reflexivity).
    assert (h_data o = dreg (hf s)) as Edat by (rewrite Eo; reflexivity).
    set (fi := mk_fin (i_vld i && negb (f_wwait (hf s))) (i_data i)
                      ((i_rd i || negb (ovld s)) && negb (f_rwait (hf s)))).
    assert (fst (step s i) = mk_hsf (fst (fifo_step D (hf s) fi))
              (if i_rd i || negb (ovld s) then negb (f_rwait (hf s)) else ovld s)) as Es.
    { unfold hsf_step, inner_depth. fold D. fold fi. destruct (fifo_step D (hf s) fi). reflexivity. }
    assert (w_en fi = true -> length qi < D) as Hen.
    { unfold fi. cbn. rewrite (rep_wwait _ HD _ _ R). pose proof (rep_len _ _ _ R).
      destruct (i_vld i), (Nat.eqb_spec (length qi) D); simpl; lia. }
    destruct (rep_step D HD (hf s) qi fi R Hen) as [R' Hd].
    assert (w_en fi = acc) as Ewen.
    { unfold fi, acc. cbn [w_en]. rewrite Erd, (rep_wwait _ HD _ _ R). reflexivity. }
    assert (r_en fi && negb (length qi =? 0) = (i_rd i || negb (ovld s)) && negb (length qi =? 0)) as Eren.
    { unfold fi. cbn [r_en]. rewrite (rep_rwait _ HD _ _ R).
      destruct (i_rd i || negb (ovld s)), (length qi =? 0); reflexivity. }
    rewrite Ewen, Eren in R'. rewrite Eren in Hd.
    assert (w_data fi = i_data i) as Ewd by reflexivity. rewrite Ewd in R'.
    rewrite Es. unfold HRep. cbn [hf ovld].
    rewrite (rep_rwait _ HD _ _ R).
    assert (o_rdata (snd (fifo_step D (hf s) fi)) = dreg (fst (fifo_step D (hf s) fi))) as Edreg by reflexivity.
    rewrite Edreg in Hd.
    assert (f_read (hf s) (r_en fi) = (i_rd i || negb (ovld s)) && negb (length qi =? 0)) as Efr.
    { rewrite f_read_wait, (rep_rwait _ HD _ _ R). exact Eren. }
    assert (f_read (hf s) (r_en fi) = false -> dreg (fst (fifo_step D (hf s) fi)) = dreg (hf s)) as Hkeep.
    { intros E. unfold fifo_step. rewrite E. reflexivity. }
    rewrite Efr in Hkeep.
    repeat apply conj.
    - eexists. split; [exact R'|]. unfold q_next.
      unfold del. rewrite Evld. subst q.
      destruct (ovld s), (i_rd i); cbn [orb andb negb tl] in *.
      + destruct (length qi =? 0) eqn:E0; cbn [negb].
        * reflexivity.
        * destruct (Hd eq_refl) as [x [q' [-> Ex]]]. rewrite Ex. reflexivity.
      + rewrite Hkeep by reflexivity. reflexivity.
      + destruct (length qi =? 0) eqn:E0; cbn [negb].
        * reflexivity.
        * destruct (Hd eq_refl) as [x [q' [-> Ex]]]. rewrite Ex. reflexivity.
      + destruct (length qi =? 0) eqn:E0; cbn [negb].
        * reflexivity.
        * destruct (Hd eq_refl) as [x [q' [-> Ex]]]. rewrite Ex. reflexivity.
    - rewrite Evld, Edat. intros E. rewrite E in Eq. eauto.
    - rewrite Evld, Edat. intros E1 E2. rewrite E1, E2 in *. cbn in *. auto.
    - intros Hlt. rewrite Erd. destruct (Nat.eqb_spec (length qi) D); [|reflexivity].
      subst q. unfold D in *. destruct (ovld s); simpl in *; lia.
    - rewrite Eo. cbn. rewrite (rep_size _ _ _ R). subst q. pose proof (rep_len _ _ _ R).
      destruct (ovld s); simpl; [rewrite hs_size_inc by lia; lia|reflexivity].
    - rewrite Eo. cbn. rewrite (rep_space _ _ _ R). subst q. pose proof (rep_len _ _ _ R).
      unfold D in *. destruct (ovld s); simpl; [lia|rewrite hs_size_inc by (unfold D; lia); lia].
    - rewrite Evld. intros E Hq. rewrite E in *. subst q. rewrite orb_true_r.
      destruct qi; [congruence|reflexivity].
    - rewrite Evld. intros E E2 Hq. rewrite E, E2 in *. subst q. cbn in *.
      destruct qi; [congruence|reflexivity].
  Qed.

  Definition obs_trace s is : list (hs_cycle A A) := map hsf_obs (trace step s is).

  Lemma acc_cons s i is :
    accepted (obs_trace s (i :: is)) =
      (if i_vld i && h_rd (snd (step s i)) then [i_data i] else []) ++
      accepted (obs_trace (fst (step s i)) is).
  Proof. unfold obs_trace. rewrite trace_cons. simpl. destruct (_ && _); reflexivity. Qed.

  Lemma del_cons s i is :
    delivered (obs_trace s (i :: is)) =
      (if h_vld (snd (step s i)) && i_rd i then [h_data (snd (step s i))] else []) ++
      delivered (obs_trace (fst (step s i)) is).
  Proof. unfold obs_trace. rewrite trace_cons. simpl. destruct (_ && _); reflexivity. Qed.

  Lemma hs_run s q is :
    HRep s q ->
    exists q', HRep (final step s is) q' /\
      q ++ accepted (obs_trace s is) = delivered (obs_trace s is) ++ q'.
  Proof.
    revert s q. induction is as [|i is IH]; intros s q R.
    - exists q. split; [exact R|]. simpl. apply app_nil_r.
    - destruct (hrep_step s q i R) as [R' [Hv _]].
      destruct (IH _ _ R') as [q' [R2 E]].
      exists q'. split; [rewrite final_cons; exact R2|].
      rewrite acc_cons, del_cons. set (o := snd (step s i)) in *.
      rewrite <- app_assoc, <- E.
      destruct (h_vld o && i_rd i) eqn:Ed.
      + apply andb_true_iff in Ed. destruct Ed as [E1 E2].
        destruct (Hv E1) as [q0 ->]. cbn [tl]. rewrite <- app_assoc. reflexivity.
      + rewrite <- app_assoc. reflexivity.
  Qed.

  Lemma hs_stable s q is : HRep s q -> out_stable (obs_trace s is).
  Proof.
    revert s q. induction is as [|i is IH]; intros s q R; [exact I|].
    destruct (hrep_step s q i R) as [R' [_ [Hst _]]].
    specialize (IH _ _ R').
    unfold obs_trace in *. rewrite trace_cons. cbn [map].
    destruct is as [|j is]; [exact I|].
    rewrite trace_cons in *. cbn [map] in *. split; [|exact IH].
    cbn [hsf_obs out_vld out_rd out_data fst snd].
    intros E1 E2. destruct (Hst E1 E2) as [H1 H2]. rewrite (step_out _ j). cbn. auto.
  Qed.

  (** Draining. *)
  Lemma hs_drain s q q1 q2 is :
    HRep s q -> q = q1 ++ q2 ->
    (forall i, In i is -> i_rd i = true) ->
    length q1 + (if ovld s then 0 else match q1 with [] => 0 | _ => 1 end) <= length is ->
    exists more, delivered (obs_trace s is) = q1 ++ more.
  Proof.
    revert s q q1 q2. induction is as [|i is IH]; intros s q q1 q2 R Eq Hrd Hlen.
    - destruct q1; [|simpl in Hlen; lia]. exists []. reflexivity.
    - destruct q1 as [|x q1]; [eexists; reflexivity|].
      destruct (hrep_step s q i R) as [R' [Hv [_ [_ [_ [_ [Hfill Hfill2]]]]]]].
      rewrite del_cons.
      set (o := snd (step s i)) in *.
      assert (h_vld o = ovld s) as Evld by (unfold o; rewrite step_out; reflexivity).
      rewrite (Hrd i (or_introl eq_refl)) in *. rewrite Evld in *. simpl in Hlen.
      destruct (ovld s) eqn:Eov; cbn [andb] in *.
      + destruct (Hv eq_refl) as [q' Eq']. rewrite Eq' in Eq. injection Eq as Ex Eq.
        rewrite Eq' in R', Hfill2. cbn [tl] in *. subst q'.
        destruct (IH _ _ q1 (q2 ++ (if i_vld i && h_rd o then [i_data i] else [])) R') as [more Em].
        * rewrite app_assoc. reflexivity.
        * intros j Hj. apply Hrd. right. exact Hj.
        * destruct q1 as [|y q1]; [cbn [length]; destruct (ovld (fst (step s i))); lia|].
          rewrite Hfill2 by (try reflexivity; discriminate). cbn [length] in *. lia.
        * exists more. rewrite Em, <- Ex. reflexivity.
      + destruct (IH _ _ (x :: q1) (q2 ++ (if i_vld i && h_rd o then [i_data i] else [])) R') as [more Em].
        * rewrite Eq. rewrite <- app_assoc. reflexivity.
        * intros j Hj. apply Hrd. right. exact Hj.
        * rewrite Hfill by (try reflexivity; subst q; discriminate). cbn [length] in *. lia.
        * exists more. rewrite Em. reflexivity.
  Qed.
End HsFifo.
