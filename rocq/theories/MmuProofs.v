From Verif Require Import Base BaseFacts FifoModel FifoProofs HsFifoProofs RamModel RamSpec RamProofs MmuModel MmuSpec.
From Coq Require Import NArith.
Open Scope N_scope.

(** * numbers *)
Lemma p2_pos n : 0 < p2 n. Proof. unfold p2. apply N.neq_0_lt_0. apply N.pow_nonzero. discriminate. Qed.
Lemma p2_add a b : p2 (a + b) = p2 a * p2 b. Proof. unfold p2. rewrite Nat2N.inj_add. apply N.pow_add_r. Qed.
Lemma p2_nat k : N.of_nat (2 ^ k) = p2 k.
Proof. unfold p2. induction k as [|k IH]; [reflexivity|]. rewrite Nat.pow_succ_r', Nat2N.inj_mul, IH, (Nat2N.inj_succ k), N.pow_succ_r'. reflexivity. Qed.
Lemma p2_8 n : p2 (8 * S n) = 256 * p2 (8 * n).
Proof. replace (8 * S n)%nat with (8 + 8 * n)%nat by lia. rewrite p2_add. reflexivity. Qed.

Section Bytes.
  Variable mem : N -> N.
  Hypothesis Hmem : forall a, mem a < 256.
  Lemma le_lt n : forall a, le mem a n < p2 (8 * n).
  Proof.
    induction n as [|n IH]; intros a; [reflexivity|]. cbn [le]. rewrite p2_8. specialize (IH (a + 1)). specialize (Hmem a). nia.
  Qed.
  Lemma le_app m : forall n a, le mem a (m + n) = le mem a m + p2 (8 * m) * le mem (a + N.of_nat m) n.
  Proof.
    induction m as [|m IH]; intros n a.
    - cbn [Nat.add le]. change (p2 (8 * 0)) with 1. replace (a + N.of_nat 0) with a by lia. lia.
    - cbn [Nat.add le]. rewrite IH, p2_8. replace (a + 1 + N.of_nat m) with (a + N.of_nat (S m)) by lia. lia.
  Qed.
  Lemma le_slice k j b a : (j < k)%nat -> (le mem a (k * b) / p2 (8 * b * j)) mod p2 (8 * b) = le mem (a + N.of_nat (j * b)) b.
  Proof.
    intros H. replace (k * b)%nat with (j * b + (b + (k - j - 1) * b))%nat by nia.
    rewrite le_app. replace (8 * b * j)%nat with (8 * (j * b))%nat by lia.
    rewrite N.add_comm, N.mul_comm, N.div_add_l by (pose proof (p2_pos (8 * (j * b))); lia).
    rewrite (N.div_small (le mem a (j * b))) by apply le_lt. rewrite N.add_0_r.
    rewrite le_app. rewrite N.mul_comm, N.mod_add by (pose proof (p2_pos (8 * b)); lia). apply N.mod_small, le_lt.
  Qed.
End Bytes.

  Lemma l2_pow k : (1 <= k)%nat -> log2ceil (2 ^ k) = k.
  Proof.
    intros H. unfold log2ceil. replace (2 ^ k <=? 1)%nat with false; [apply Nat.log2_up_pow2; lia|].
    symmetry. apply Nat.leb_gt. destruct k; [lia|]. cbn [Nat.pow]. pose proof (pow2_pos k). lia.
  Qed.

Lemma hs_present {A} D (HD : (2 <= D)%nat) (s : hsf_st A) q i : HRep D s q ->
  (if ovld s && i_rd i then tl q else q) <> [] -> ovld (fst (hsf_step D s i)) = true.
Proof.
  intros H Hn. destruct (hrep_step D HD s q i H) as (_ & _ & H3 & _ & _ & _ & H7 & H8). pose proof (step_out D s i) as E. rewrite E in *. cbn [h_vld] in *.
  destruct (ovld s); cbn [andb] in Hn; [|exact (H7 eq_refl Hn)]. destruct (i_rd i); [exact (H8 eq_refl eq_refl Hn)|exact (proj1 (H3 eq_refl eq_refl))].
Qed.

(** * ArrayItemGetter *)
Section GetP.
  Variables (AW IB K D kb ks : nat) (mem : N -> N).
  Hypothesis Hmem : forall a, mem a < 256.
  Hypothesis HIB : IB = (2 ^ kb)%nat. Hypothesis Hkb : (1 <= kb)%nat.
  Hypothesis HK : K = (2 ^ ks)%nat. Hypothesis HD : (2 <= D)%nat.
  Notation sub := (ag_sub K).
  Notation addr := (ag_addr AW IB K).
  Notation step := (ag_step AW IB K D).

  Lemma K1 : (K =? 1)%nat = (ks =? 0)%nat.
  Proof. rewrite HK. destruct ks; [reflexivity|]. apply Nat.eqb_neq. cbn [Nat.pow]. pose proof (pow2_pos n). lia. Qed.

  Definition pick (w s : N) : N := if (K =? 1)%nat then w else ag_slice IB w s.
  Lemma pick_ok base idx : base + idx * N.of_nat IB < p2 AW -> pick (le mem (addr base idx) (K * IB)) (idx mod p2 sub) = item mem base IB idx.
  Proof.
    intros Hf. unfold pick, ag_addr, item, ag_align, ag_sub. rewrite K1. rewrite HIB, l2_pow by exact Hkb.
    rewrite HIB, p2_nat in Hf. rewrite p2_nat.
    destruct ks as [|k] eqn:Ek; cbn [Nat.eqb].
    - rewrite HK. cbn [Nat.pow]. rewrite Nat.mul_1_l. f_equal. rewrite (N.mod_small (idx * p2 kb)) by lia. apply N.mod_small. lia.
    - rewrite HK, l2_pow by lia. set (ks' := S k) in *. rewrite p2_add.
      assert (idx = p2 ks' * (idx / p2 ks') + idx mod p2 ks') as Ed by (apply N.div_mod; pose proof (p2_pos ks'); lia).
      assert (idx / p2 ks' * (p2 kb * p2 ks') + idx mod p2 ks' * p2 kb = idx * p2 kb) as Es by (rewrite Ed at 3; lia).
      rewrite (N.mod_small (idx / p2 ks' * _)) by lia. rewrite (N.mod_small (base + _)) by lia.
      unfold ag_slice. rewrite le_slice; [|exact Hmem|].
      + f_equal. rewrite Nat2N.inj_mul, N2Nat.id, p2_nat. lia.
      + pose proof (N.mod_lt idx (p2 ks') ltac:(pose proof (p2_pos ks'); lia)). rewrite <- (p2_nat ks') in H at 2. lia.
  Qed.

  Definition ag_rep (s : ag_st) (subs : list N) : Prop := K = 1%nat \/ HRep D (ag_f s) subs.
  Definition g_acc (i : ag_in) (o : ag_out) : bool := gi_iv i && go_ird o.
  Definition g_tk (i : ag_in) (o : ag_out) : bool := gi_rv i && go_rrd o.
  Lemma ag_ok s subs i : ag_rep s subs ->
    let o := snd (step s i) in
    ag_rep (fst (step s i)) ((if g_tk i o then tl subs else subs) ++ (if g_acc i o then [gi_idx i mod p2 sub] else [])) /\
    (if gi_qrd i then go_req o else None) = (if g_acc i o then Some (addr (gi_base i) (gi_idx i)) else None) /\
    (forall d, go_item o = Some d -> gi_rv i = true /\ (K = 1%nat \/ exists h q, subs = h :: q) /\ d = pick (gi_r i) (hd 0 subs)) /\
    g_tk i o = (match go_item o with Some _ => gi_rd i | None => false end) /\
    (forall d j, go_item o = Some d -> gi_rd i = false -> gi_rv j = true -> gi_r j = gi_r i -> go_item (snd (step (fst (step s i)) j)) = Some d).
  Proof.
    intros H o. unfold o, ag_step, g_tk, g_acc, pick, ag_rep. destruct (Nat.eqb_spec K 1) as [E|E].
    - cbn [fst snd go_ird go_req go_rrd go_item]. repeat split; auto.
      + destruct (gi_qrd i), (gi_iv i); reflexivity.
      + destruct (gi_rv i); [reflexivity|discriminate].
      + destruct (gi_rv i); congruence.
      + destruct (gi_rv i); destruct (gi_rd i); reflexivity.
      + intros d j H1 H2 H3 H4. rewrite H3, H4. destruct (gi_rv i); [exact H1|discriminate].
    - destruct H as [H|H]; [contradiction|].
      set (fi := mk_hin (gi_iv i && gi_qrd i) (gi_idx i mod p2 sub) (gi_rv i && gi_rd i)).
      destruct (hrep_step D HD _ _ fi H) as (R & Hv & Hs & _). pose proof (step_out D (ag_f s) fi) as Eo.
      destruct (hsf_step D (ag_f s) fi) as [f' fo] eqn:Ef. cbn [fst snd] in *. subst fo. cbn [h_rd h_vld h_data] in *.
      cbn [fst snd go_ird go_req go_rrd go_item ag_f].
      split; [|split; [|split; [|split]]].
      + right. replace (gi_rv i && (ovld (ag_f s) && gi_rd i)) with (ovld (ag_f s) && i_rd fi) by (cbn [fi i_rd]; destruct (ovld (ag_f s)), (gi_rv i); reflexivity).
        replace (gi_iv i && (gi_qrd i && negb (f_wwait (hf (ag_f s))))) with (i_vld fi && negb (f_wwait (hf (ag_f s)))) by (cbn [fi i_vld]; rewrite andb_assoc; reflexivity).
        exact R.
      + destruct (gi_qrd i), (gi_iv i), (negb (f_wwait (hf (ag_f s)))); reflexivity.
      + intros d Hd. destruct (gi_rv i); [|discriminate]. destruct (ovld (ag_f s)) eqn:Ev; [|discriminate]. injection Hd as <-.
        destruct (Hv eq_refl) as [q ->]. split; [reflexivity|]. split; [right; eauto|reflexivity].
      + destruct (gi_rv i), (ovld (ag_f s)); reflexivity.
      + intros d j Hd Hr Hj1 Hj2. destruct (gi_rv i) eqn:Er; [|discriminate]. destruct (ovld (ag_f s)) eqn:Ev; [|discriminate]. injection Hd as <-.
        destruct (Hs eq_refl) as [Hs1 Hs2]; [cbn [fi i_rd]; rewrite Hr, andb_false_r; reflexivity|].
        set (fj := mk_hin (gi_iv j && gi_qrd j) (gi_idx j mod p2 sub) (gi_rv j && gi_rd j)).
        pose proof (step_out D f' fj) as Eo'. destruct (hsf_step D f' fj) as [f'' fo']. cbn [fst snd] in *. subst fo'. cbn [h_vld h_data].
        cbn [snd go_item]. rewrite Hs1, Hs2, Hj1, Hj2. reflexivity.
  Qed.

  Definition ag_show (g : ag_st) : bool := (K =? 1)%nat || ovld (ag_f g).
  Lemma ag_go g subs i : ag_rep g subs -> gi_qrd i = true ->
    let o := snd (ag_step AW IB K D g i) in
    ((if g_tk i o then tl subs else subs) <> [] -> ag_show (fst (ag_step AW IB K D g i)) = true) /\
    (subs = [] -> go_ird o = true) /\
    (ag_show g = true -> go_rrd o = gi_rd i) /\
    (ag_show g = true -> gi_rv i = true -> go_item o <> None).
  Proof.
    clear - HD. intros R Hq o. unfold o, ag_show, g_tk, ag_step. destruct (Nat.eqb_spec K 1) as [E|E].
    - cbn [orb fst snd go_ird go_rrd go_item]. rewrite Hq. repeat split. intros _ ->. discriminate.
    - destruct R as [R|R]; [contradiction|]. cbn [orb].
      set (fi := mk_hin (gi_iv i && gi_qrd i) (gi_idx i mod p2 (ag_sub K)) (gi_rv i && gi_rd i)).
      pose proof (hs_present D HD _ _ fi R) as Hp. destruct (hrep_step D HD _ _ fi R) as (_ & _ & _ & Hr & _). pose proof (step_out D (ag_f g) fi) as Eo.
      destruct (hsf_step D (ag_f g) fi) as [f' fo]. cbn [fst snd] in *. subst fo. cbn [h_rd h_vld h_data go_ird go_rrd go_item ag_f] in *.
      repeat split.
      + intros H. apply Hp. cbn [fi i_rd]. replace (ovld (ag_f g) && (gi_rv i && gi_rd i)) with (gi_rv i && (ovld (ag_f g) && gi_rd i)) by (destruct (gi_rv i), (ovld (ag_f g)); reflexivity). exact H.
      + intros ->. rewrite Hq. cbn [andb]. apply Hr. cbn [length]. lia.
      + intros ->. reflexivity.
      + intros -> ->. discriminate.
  Qed.

  Definition fits (p : N * N) : Prop := fst p + snd p * N.of_nat IB < p2 AW.
  Definition itm (p : N * N) : N := item mem (fst p) IB (snd p).
  Definition adr (p : N * N) : N := addr (fst p) (snd p).
  Definition sb (p : N * N) : N := snd p mod p2 sub.

  Lemma ag_run is : forall s pend, ag_rep s (map sb pend) ->
    let t := trace step s is in
    served mem (K * IB) (map adr pend) (map g_bus t) -> Forall fits pend -> Forall fits (flat_map g_asked t) ->
    exists rest, map itm (pend ++ flat_map g_asked t) = flat_map g_got t ++ map itm rest /\ (K = 1%nat \/ (length rest <= D)%nat) /\ ag_rep (final step s is) (map sb rest) /\
      pending (map adr pend) (map g_bus t) = map adr rest.
  Proof.
    induction is as [|i is IH]; intros s pend R t Hs Hp Hf.
    - exists pend. cbn. rewrite app_nil_r. split; [reflexivity|]. split; [|split; [exact R|reflexivity]]. destruct R as [R|R]; [left; exact R|right].
      apply (hrep_len D HD) in R. rewrite map_length in R. exact R.
    - subst t. rewrite trace_cons in *. cbn [map flat_map] in *. set (o := snd (step s i)) in *.
      destruct (ag_ok s _ i R) as (R' & Eq & Hi & Et & _). fold o in R', Eq, Hi, Et.
      apply Forall_app in Hf. destruct Hf as [Hf1 Hf2]. cbn [served] in Hs. unfold g_bus at 1 in Hs. cbn [fst snd] in Hs. destruct Hs as [Hs1 Hs2].
      rewrite Eq in Hs2.
      assert (g_asked (i, o) = if g_acc i o then [(gi_base i, gi_idx i)] else []) as Ea by reflexivity.
      assert (match (if gi_rv i then Some (gi_r i) else None) with Some _ => if go_rrd o then tl (map adr pend) else map adr pend | None => map adr pend end
              = map adr (if g_tk i o then tl pend else pend)) as Ep.
      { unfold g_tk. destruct (gi_rv i), (go_rrd o), pend; reflexivity. }
      rewrite Ep in Hs2.
      assert (map adr (if g_tk i o then tl pend else pend) ++ match (if g_acc i o then Some (addr (gi_base i) (gi_idx i)) else None) with Some a => [a] | None => [] end
              = map adr ((if g_tk i o then tl pend else pend) ++ g_asked (i, o))) as Ep2.
      { rewrite map_app, Ea. destruct (g_acc i o); reflexivity. }
      rewrite Ep2 in Hs2.
      destruct (IH (fst (step s i)) ((if g_tk i o then tl pend else pend) ++ g_asked (i, o))) as (rest & E1 & E2 & E3 & E4).
      + rewrite map_app, Ea. destruct (g_acc i o), (g_tk i o); destruct pend; cbn [map tl app] in *; try rewrite app_nil_r in *; exact R'.
      + exact Hs2.
      + apply Forall_app. split; [|exact Hf1]. destruct (g_tk i o); [destruct pend; [constructor|apply Forall_inv_tail in Hp; exact Hp]|exact Hp].
      + exact Hf2.
      + exists rest. split; [|split; [exact E2|split; [rewrite final_cons; exact E3|]]].
        2:{ cbn [map pending]. unfold g_bus at 1. cbn [fst snd]. rewrite Eq, Ep, Ep2. exact E4. }
        assert (map itm pend = g_got (i, o) ++ map itm (if g_tk i o then tl pend else pend)) as Eg.
        2:{ rewrite <- app_assoc, <- E1. rewrite !map_app, Eg, <- !app_assoc. reflexivity. }
        unfold g_got. cbn [fst snd]. rewrite Et.
        destruct (go_item o) as [d|] eqn:Ed; [|reflexivity]. destruct (gi_rd i); [|reflexivity].
        destruct (Hi d eq_refl) as (Hr & Hn & ->). rewrite Hr in Hs1. destruct Hs1 as (a & p & Ea1 & Ea2).
        destruct pend as [|p0 pend]; [discriminate|]. cbn [map tl hd app] in *. injection Ea1 as <- _. f_equal. rewrite Ea2.
        symmetry. unfold adr, sb. destruct p0. apply pick_ok. exact (Forall_inv Hp).
  Qed.
End GetP.
