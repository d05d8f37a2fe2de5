From Verif Require Import Base BaseFacts FifoModel FifoProofs HsFifoProofs RamModel RamSpec RamProofs MmuModel MmuSpec MmuProofs.
From Coq Require Import NArith.
Open Scope N_scope.

Section MmuP.
  Variables (AW PO W2 K MO D kb ks : nat) (mem : N -> N) (u : N).
  Hypothesis Hmem : forall a, mem a < 256.
  Hypothesis HAW : AW = (8 * 2 ^ kb)%nat. Hypothesis Hkb : (1 <= kb)%nat.
  Hypothesis HK : K = (2 ^ ks)%nat. Hypothesis HD : (2 <= D)%nat. Hypothesis HMO : (4 <= MO)%nat.
  Notation IB := (AW / 8)%nat.
  Notation step := (mm_step AW PO W2 K MO D u).
  Notation phys := (physical mem AW PO W2).
  Notation mpd := (mapped mem AW PO W2).

  Lemma HIB : IB = (2 ^ kb)%nat. Proof. clear - HAW. rewrite HAW, Nat.mul_comm. apply Nat.div_mul. discriminate. Qed.
  Lemma HM2 : (2 <= MO / 2)%nat. Proof. clear - HMO. apply Nat.div_le_lower_bound; lia. Qed.

  Definition pair (q : N * N) : N * N := (snd q, (fst q / p2 PO) mod p2 W2).
  Definition tfit (q : N * N) : Prop := N.odd (snd q) = false -> snd q + p2 W2 * N.of_nat IB <= p2 AW.
  Lemma tfit_fits q : tfit q -> N.odd (snd q) = false -> fits AW IB (pair q).
  Proof.
    intros H1 H2. specialize (H1 H2). unfold fits, pair. cbn [fst snd].
    pose proof (N.mod_lt (fst q / p2 PO) (p2 W2) ltac:(pose proof (p2_pos W2); lia)) as H3.
    rewrite HIB in *. rewrite p2_nat in *. pose proof (p2_pos kb). nia.
  Qed.

  Record inv (s : mm_st) (Q1 Q2 : list (N * N)) (tbl : N -> N) : Prop := mk_inv {
    iv_flag : mm_flag s = false;
    iv_ram : rh_inv (mm_ram s); iv_cont : rh_cont (mm_ram s) = map snd Q1;
    iv_i2 : HRep (MO / 2) (mm_i2 s) (map (fun q => snd (pair q)) Q1);
    iv_po : HRep MO (mm_po s) (map (fun q => fst q mod p2 PO) (Q2 ++ Q1));
    iv_get : ag_rep K D (mm_get s) (map (sb K) (map pair Q2));
    iv_even : Forall (fun q => N.odd (snd q) = false) Q2;
    iv_tbl : forall a, tbl a = rs_mem (mm_ram s) (N.to_nat a) }.

  Definition tbl' (i : mm_in) (tbl : N -> N) : N -> N := if mi_we i then fun a => if a =? mi_wa i then mi_wd i else tbl a else tbl.
  Definition new (i : mm_in) (o : mm_out) (tbl : N -> N) : list (N * N) :=
    if u_taken (i, o) then [(mi_v i, tbl (mi_v i / p2 (W2 + PO)))] else [].

  Lemma mm_seg s i : mo_seg (snd (step s i)) = mm_flag s.
  Proof. unfold mm_step. destruct (ag_step _ _ _ _ _ _), (rh_step _ _ _), (hsf_step _ _ _), (hsf_step _ _ _). reflexivity. Qed.
  Lemma mm_stuck s i : mm_flag s = true -> mm_flag (fst (step s i)) = true /\ mo_p (snd (step s i)) = None.
  Proof.
    intros H. unfold mm_step. rewrite H. destruct (ag_step _ _ _ _ _ _) as [g' go], (rh_step _ _ _), (hsf_step _ _ _), (hsf_step _ _ _). cbn [fst snd mm_flag mo_p].
    split; [destruct (_ || _); reflexivity|]. destruct (go_item go); [|reflexivity]. rewrite andb_false_r. reflexivity.
  Qed.
  Lemma stuck_run is : forall s, mm_flag s = true -> flat_map u_sent (trace step s is) = [].
  Proof.
    induction is as [|i is IH]; intros s H; [reflexivity|]. rewrite trace_cons. cbn [flat_map]. destruct (mm_stuck s i H) as [H1 H2].
    rewrite IH by exact H1. unfold u_sent. cbn [fst snd]. rewrite H2. reflexivity.
  Qed.

  Lemma mm_ok s Q1 Q2 tbl i : inv s Q1 Q2 tbl ->
    let o := snd (step s i) in let x := (i, o) in
    u_quiet x -> Forall tfit Q2 ->
    match (if mi_rv i then Some (mi_r i) else None) with Some d => exists a p, map (adr AW IB K) (map pair Q2) = a :: p /\ d = le mem a (K * IB) | None => True end ->
    let tk := mi_rv i && mo_rrd o in
    exists (tr : bool), (tr = true -> Q1 <> []) /\
      (if mi_qrd i then mo_req o else None) = (if tr then Some (adr AW IB K (pair (hd (0,0) Q1))) else None) /\
      (tk = true -> Q2 <> []) /\
      (mm_flag (fst (step s i)) = false ->
         inv (fst (step s i)) ((if tr then tl Q1 else Q1) ++ new i o tbl) ((if tk then tl Q2 else Q2) ++ (if tr then [hd (0,0) Q1] else [])) (tbl' i tbl) /\
         u_sent x = if tk then [phys (hd (0,0) Q2)] else []) /\
      (mm_flag (fst (step s i)) = true -> (u_sent x = [] \/ Q2 <> [] /\ u_sent x = [phys (hd (0,0) Q2)]) /\ exists q, In q (Q2 ++ Q1) /\ mpd q = false) /\
      (u_sent x <> [] -> Q2 <> [] /\ mpd (hd (0,0) Q2) = true).
  Proof.
    intros I o x Hq Hfit Hr tk.
    destruct I as [Ifl Iram Icont Ii2 Ipo Iget Ieven Itbl]. pose proof HM2 as HM2'. assert (2 <= MO)%nat as HMO2 by lia.
    subst tk; subst x; subst o. unfold mm_step in *. rewrite Ifl in *. cbn [negb] in *. rewrite andb_true_r in *.
    set (gi := mk_agi (rs_data (mm_ram s)) (rs_vld (mm_ram s) && ovld (mm_i2 s)) (dreg (hf (mm_i2 s))) (mi_qrd i) (mi_rv i) (mi_r i) (ovld (mm_po s) && mi_prd i)) in *.
    destruct (ag_ok AW IB K D HD (mm_get s) _ gi Iget) as (GR & Gq & Gi & Gt & _).
    destruct (ag_step AW IB K D (mm_get s) gi) as [g' go] eqn:Eg. cbn [fst snd] in GR, Gq, Gi, Gt.
    set (ri := mk_ri (mi_vv i && negb (f_wwait (hf (mm_i2 s))) && negb (f_wwait (hf (mm_po s)))) (N.to_nat (mm_l1 PO W2 (mi_v i))) (ovld (mm_i2 s) && go_ird go) (mi_we i) (N.to_nat (mi_wa i)) (mi_wd i)) in *.
    destruct (rh_step_ok u (mm_ram s) ri Iram) as (RI & RC & RM & RW & _).
    destruct (rh_step u (mm_ram s) ri) as [ram' ro] eqn:Er. cbn [fst snd] in RI, RC, RM, RW.
    assert (ro_dvld ro = rs_vld (mm_ram s) /\ ro_data ro = rs_data (mm_ram s) /\ ro_wrd ro = negb (ro_ard ro) || negb (ri_avld ri)) as (Ro1 & Ro2 & Ro3).
    { unfold rh_step in Er. clear - Er. destruct (rs_pend _); [destruct (_ || ri_drd ri)|destruct (ri_drd ri)]; injection Er as <- <-; auto. }
    set (i2i := mk_hin (mi_vv i && ro_ard ro && negb (f_wwait (hf (mm_po s)))) (mm_l2 PO W2 (mi_v i)) (rs_vld (mm_ram s) && go_ird go)) in *.
    destruct (hrep_step (MO / 2) HM2' _ _ i2i Ii2) as (R2 & V2 & _). pose proof (step_out (MO / 2) (mm_i2 s) i2i) as E2.
    destruct (hsf_step (MO / 2) (mm_i2 s) i2i) as [i2' i2o]. cbn [fst snd] in R2, V2, E2. subst i2o. cbn [h_rd h_vld h_data] in R2, V2.
    set (itv := match go_item go with Some _ => true | None => false end) in *.
    set (poi := mk_hin (mi_vv i && ro_ard ro && negb (f_wwait (hf (mm_i2 s)))) (mm_off PO (mi_v i)) (itv && mi_prd i)) in *.
    destruct (hrep_step MO HMO2 _ _ poi Ipo) as (R3 & V3 & _). pose proof (step_out MO (mm_po s) poi) as E3.
    destruct (hsf_step MO (mm_po s) poi) as [po' poo]. cbn [fst snd] in R3, V3, E3. subst poo. cbn [h_rd h_vld h_data] in R3, V3.
    cbn [fst snd mm_flag mo_vrd mo_p mo_req mo_rrd mo_seg] in *.
    set (vld1 := rs_vld (mm_ram s)) in *. set (v2 := ovld (mm_i2 s)) in *. set (vo := ovld (mm_po s)) in *.
    set (acc := mi_vv i && (negb (f_wwait (hf (mm_i2 s))) && ro_ard ro && negb (f_wwait (hf (mm_po s))))) in *.
    set (tr := vld1 && v2 && go_ird go).
    assert (Ha1 : rd_acc (ri, ro) = acc). { unfold rd_acc, acc, ri. cbn [fst snd ri_avld]. destruct (mi_vv i), (ro_ard ro), (f_wwait (hf (mm_i2 s))), (f_wwait (hf (mm_po s))); reflexivity. }
    assert (Ha2 : i_vld i2i && negb (f_wwait (hf (mm_i2 s))) = acc). { unfold acc, i2i. cbn [i_vld]. destruct (mi_vv i), (ro_ard ro), (f_wwait (hf (mm_i2 s))), (f_wwait (hf (mm_po s))); reflexivity. }
    assert (Ha3 : i_vld poi && negb (f_wwait (hf (mm_po s))) = acc). { unfold acc, poi. cbn [i_vld]. destruct (mi_vv i), (ro_ard ro), (f_wwait (hf (mm_i2 s))), (f_wwait (hf (mm_po s))); reflexivity. }
    assert (Ht1 : dat_acc (ri, ro) = tr). { unfold dat_acc, tr, ri. cbn [fst snd ri_drd]. rewrite Ro1. fold vld1. destruct vld1, v2, (go_ird go); reflexivity. }
    assert (Ht2 : v2 && i_rd i2i = tr). { unfold tr, i2i. cbn [i_rd]. destruct vld1, v2, (go_ird go); reflexivity. }
    assert (Ht3 : g_acc gi go = tr). { unfold tr, g_acc, gi. cbn [gi_iv]. reflexivity. }
    assert (Htk : mi_rv i && go_rrd go = itv && (vo && mi_prd i)). { transitivity (g_tk gi go); [reflexivity|]. rewrite Gt. unfold itv, gi. cbn [gi_rd]. destruct (go_item go); reflexivity. }
    assert (Ht4 : vo && i_rd poi = mi_rv i && go_rrd go). { rewrite Htk. unfold poi. cbn [i_rd]. destruct itv, vo, (mi_prd i); reflexivity. }
    assert (Hgt : g_tk gi go = mi_rv i && go_rrd go) by reflexivity.
    rewrite Ha1, Ht1 in RC. rewrite Ha2, Ht2 in R2. rewrite Ha3, Ht4 in R3. rewrite Ht3 in GR, Gq. rewrite Hgt in GR.
    set (tk := mi_rv i && go_rrd go) in *.
    (* the head of Q1 *)
    assert (HQ1 : vld1 = true -> exists q Q, Q1 = q :: Q /\ snd q = rs_data (mm_ram s)).
    { intros H. unfold rh_cont in Icont. fold vld1 in Icont. rewrite H in Icont. destruct Q1 as [|q Q]; [discriminate|]. exists q, Q. split; [reflexivity|]. injection Icont. auto. }
    assert (HQ1b : tr = true -> exists q Q, Q1 = q :: Q /\ snd q = rs_data (mm_ram s) /\ snd (pair q) = dreg (hf (mm_i2 s))).
    { intros H. unfold tr in H. apply andb_prop in H. destruct H as [H _]. apply andb_prop in H. destruct H as [Hl H2].
      destruct (HQ1 Hl) as (q & Q & -> & Hs). exists q, Q. split; [reflexivity|]. split; [exact Hs|]. destruct (V2 H2) as [q' E]. cbn [map] in E. injection E. auto. }
    (* the item *)
    assert (HIt : forall d, go_item go = Some d -> exists q Q, Q2 = q :: Q /\ d = second mem AW PO W2 q /\ N.odd (snd q) = false).
    { intros d Hd. destruct (Gi d Hd) as (Hv & _ & ->). unfold gi in Hv. cbn [gi_rv] in Hv. rewrite Hv in Hr. destruct Hr as (a & p & Ea1 & Ea2).
      destruct Q2 as [|q Q]; [discriminate|]. exists q, Q. pose proof (Forall_inv Ieven) as He. cbn beta in He. split; [reflexivity|]. split; [|exact He].
      cbn [map] in Ea1. apply (f_equal (hd 0)) in Ea1. cbn [hd] in Ea1. subst a. cbn [gi gi_r]. rewrite Ea2. cbn [map hd]. unfold adr, sb.
      rewrite (pick_ok AW IB K D kb ks mem Hmem HIB Hkb HK HD); [reflexivity|]. exact (tfit_fits q (Forall_inv Hfit) He). }
    assert (Hsd : match go_item go with Some d => if vo && negb (false || N.odd d) then Some (d / p2 PO * p2 PO + dreg (hf (mm_po s))) else None | None => None end
              = match go_item go with Some d => if vo && negb (N.odd d) then Some (phys (hd (0,0) Q2)) else None | None => None end).
    { destruct (go_item go) as [d|] eqn:Ed; [|reflexivity]. destruct (HIt d eq_refl) as (q & Q & EQ & -> & _). subst Q2. cbn [orb]. destruct vo; [|reflexivity].
      destruct (V3 eq_refl) as [q' E]. cbn [app map] in E. injection E as <- _. reflexivity. }
    assert (Hp : forall b c d, u_sent (i, mk_mmo b (match go_item go with Some d => if vo && negb (false || N.odd d) then Some (d / p2 PO * p2 PO + dreg (hf (mm_po s))) else None | None => None end) c d (mm_flag s))
              = match go_item go with Some d => if vo && negb (N.odd d) && mi_prd i then [phys (hd (0,0) Q2)] else [] | None => [] end).
    { intros b c d. unfold u_sent. cbn [fst snd mo_p]. rewrite Hsd. destruct (go_item go) as [e|]; [|reflexivity]. destruct vo, (N.odd e), (mi_prd i); reflexivity. }
    rewrite Ifl in Hp. rewrite !Hp. clear Hp Hsd.
    exists tr. split; [|split; [|split; [|split; [|split]]]].
    - intros H. destruct (HQ1b H) as (q & Q & -> & _). discriminate.
    - transitivity (if gi_qrd gi then go_req go else None); [reflexivity|]. rewrite Gq. destruct tr; [|reflexivity]. destruct (HQ1b eq_refl) as (q & Q & -> & Hs1 & Hs2).
      cbn [hd]. unfold adr. cbn [gi gi_base gi_idx]. rewrite <- Hs1, <- Hs2. reflexivity.
    - intros H. unfold itv in Htk. destruct (go_item go) as [d|] eqn:Ed; [|rewrite Htk in H; discriminate]. destruct (HIt d eq_refl) as (q & Q & -> & _). discriminate.
    - intros Hfl.
      assert (Hev : tr = true -> N.odd (snd (hd (0,0) Q1)) = false).
      { intros H. destruct (HQ1b H) as (q & Q & -> & Hs1 & _). cbn [hd]. rewrite Hs1. unfold tr in H. fold vld1 in Hfl. destruct vld1; [|discriminate]. destruct (N.odd (rs_data (mm_ram s))); [discriminate|reflexivity]. }
      split.
      + assert (Hnew : forall (f : N * N -> N), map f (new i (mk_mmo (negb (f_wwait (hf (mm_i2 s))) && ro_ard ro && negb (f_wwait (hf (mm_po s)))) (match go_item go with Some d => if vo && negb (false || N.odd d) then Some (d / p2 PO * p2 PO + dreg (hf (mm_po s))) else None | None => None end) (go_req go) (go_rrd go) false) tbl)
            = if acc then [f (mi_v i, tbl (mi_v i / p2 (W2 + PO)))] else []).
        { intros f. unfold new, u_taken. cbn [fst snd mo_vrd]. fold acc. destruct acc; reflexivity. }
        constructor; cbn [mm_flag mm_ram mm_get mm_i2 mm_po].
        * exact Hfl.
        * exact RI.
        * rewrite map_app, Hnew. rewrite Icont in RC. cbn [snd]. rewrite Itbl. cbn [snd ri ri_addr] in RC. unfold mm_l1 in RC.
          rewrite Ro2 in RC. destruct tr; [|symmetry; exact RC]. destruct (HQ1b eq_refl) as (q & Q & -> & Hs1 & _). cbn [map tl app] in RC |- *.
          rewrite Hs1 in RC. injection RC as RC. symmetry. exact RC.
        * rewrite map_app, Hnew. assert (map (fun q => snd (pair q)) (if tr then tl Q1 else Q1) = (if tr then tl (map (fun q => snd (pair q)) Q1) else map (fun q => snd (pair q)) Q1)) as -> by (destruct tr, Q1; reflexivity).
          exact R2.
        * assert (((if tk then tl Q2 else Q2) ++ (if tr then [hd (0, 0) Q1] else [])) ++ (if tr then tl Q1 else Q1) = (if tk then tl (Q2 ++ Q1) else Q2 ++ Q1)) as Eqq.
          { assert ((if tr then [hd (0, 0) Q1] else []) ++ (if tr then tl Q1 else Q1) = Q1) as E1.
            { destruct tr; [|reflexivity]. destruct (HQ1b eq_refl) as (q & Q & -> & _). reflexivity. }
            rewrite <- app_assoc, E1. destruct tk eqn:Etk; [|reflexivity]. unfold itv in Htk. destruct (go_item go) as [d|] eqn:Ed; [|discriminate].
            destruct (HIt d eq_refl) as (q & Q & -> & _). reflexivity. }
          rewrite (app_assoc _ (if tr then tl Q1 else Q1)), Eqq, map_app, Hnew.
          assert (map (fun q : N * N => fst q mod p2 PO) (if tk then tl (Q2 ++ Q1) else Q2 ++ Q1) = (if tk then tl (map (fun q : N * N => fst q mod p2 PO) (Q2 ++ Q1)) else map (fun q : N * N => fst q mod p2 PO) (Q2 ++ Q1))) as -> by (destruct tk, (Q2 ++ Q1); reflexivity).
          exact R3.
        * rewrite !map_app. assert (map (sb K) (map pair (if tk then tl Q2 else Q2)) = (if tk then tl (map (sb K) (map pair Q2)) else map (sb K) (map pair Q2))) as -> by (destruct tk, Q2; reflexivity).
          assert (map (sb K) (map pair (if tr then [hd (0, 0) Q1] else [])) = (if tr then [gi_idx gi mod p2 (ag_sub K)] else [])) as ->; [|exact GR].
          destruct tr; [|reflexivity]. destruct (HQ1b eq_refl) as (q & Q & -> & _ & Hs2). cbn [map hd]. unfold sb. rewrite Hs2. reflexivity.
        * apply Forall_app. split.
          -- destruct tk; [destruct Q2; [constructor|exact (Forall_inv_tail Ieven)]|exact Ieven].
          -- destruct tr; [|constructor]. constructor; [exact (Hev eq_refl)|constructor].
        * intros a. rewrite RM. unfold wr_acc. cbn [fst snd]. rewrite Ro3. unfold tbl'. cbn [ri ri_wvld ri_waddr ri_wdata].
          unfold u_quiet, u_taken in Hq. cbn [fst snd mo_vrd] in Hq. fold acc in Hq. rewrite <- Ha1 in Hq. unfold rd_acc in Hq. cbn [fst snd ri ri_avld] in Hq. cbn [ri ri_avld].
          destruct (mi_we i); [|apply Itbl].
          replace (negb (ro_ard ro) || negb (mi_vv i && negb (f_wwait (hf (mm_i2 s))) && negb (f_wwait (hf (mm_po s))))) with true.
          2:{ destruct (ro_ard ro), (mi_vv i && negb (f_wwait (hf (mm_i2 s))) && negb (f_wwait (hf (mm_po s)))); try reflexivity. discriminate (Hq eq_refl). }
          cbn [andb]. unfold upd. destruct (N.eqb_spec a (mi_wa i)) as [->|Hne]; [rewrite Nat.eqb_refl; reflexivity|].
          destruct (Nat.eqb_spec (N.to_nat a) (N.to_nat (mi_wa i))) as [E|_]; [apply N2Nat.inj in E; contradiction|]. apply Itbl.
      + unfold itv in Htk. destruct (go_item go) as [d|] eqn:Ed; [|rewrite Htk; reflexivity]. rewrite Htk.
        destruct (N.odd d); [rewrite orb_true_r in Hfl; discriminate|]. destruct vo, (mi_prd i); reflexivity.
    - intros Hfl. split.
      * destruct (go_item go) as [d|] eqn:Ed; [|left; reflexivity]. destruct (HIt d eq_refl) as (q & Q & -> & _). destruct (vo && negb (N.odd d) && mi_prd i); [right; split; [discriminate|reflexivity]|left; reflexivity].
      * fold vld1 in Hfl. destruct (vld1 && N.odd (rs_data (mm_ram s))) eqn:E1.
        + apply andb_prop in E1. destruct E1 as [E1 E2]. destruct (HQ1 E1) as (q & Q & -> & Hs1). exists q. split; [apply in_or_app; right; left; reflexivity|].
          unfold mapped. rewrite Hs1, E2. reflexivity.
        + destruct (go_item go) as [d|] eqn:Ed; [|discriminate]. destruct (HIt d eq_refl) as (q & Q & -> & -> & _). exists q. split; [left; reflexivity|].
          unfold mapped. cbn [orb] in Hfl. destruct (N.odd (second mem AW PO W2 q)); [apply andb_false_r|discriminate].
    - intros H. destruct (go_item go) as [d|] eqn:Ed; [|congruence]. destruct (HIt d eq_refl) as (q & Q & -> & -> & He). split; [discriminate|]. cbn [hd]. unfold mapped. rewrite He.
      destruct (N.odd (second mem AW PO W2 q)); [rewrite andb_false_r in H; cbn in H; congruence|reflexivity].
  Qed.

  Lemma mm_run is : forall s Q1 Q2 tbl, inv s Q1 Q2 tbl ->
    let t := trace step s is in let L := Q2 ++ Q1 ++ lookups PO W2 tbl t in
    Forall u_quiet t -> served mem (K * IB) (map (adr AW IB K) (map pair Q2)) (map u_bus t) -> Forall tfit L ->
    (exists n, flat_map u_sent t = map phys (firstn n L) /\ (n <= length L)%nat /\ forallb mpd (firstn n L) = true) /\
    (forall x, In x t -> mo_seg (snd x) = true -> exists q, In q L /\ mpd q = false).
  Proof.
    induction is as [|i is IH]; intros s Q1 Q2 tbl I t L Hq Hs Hf.
    - split; [exists 0%nat; repeat split; lia|contradiction].
    - subst L t. rewrite trace_cons in *. set (o := snd (step s i)) in *. cbn [flat_map map lookups] in *.
      cbn [served] in Hs. unfold u_bus at 1 in Hs. cbn [fst snd] in Hs. destruct Hs as [Hs1 Hs2].
      assert (Hf2 : Forall tfit Q2) by (apply Forall_app in Hf; apply Hf).
      destruct (mm_ok s Q1 Q2 tbl i I (Forall_inv Hq) Hf2 Hs1) as (tr & HQ1 & Eq & HQ2 & HA & HB & HC). fold o in Eq, HQ2, HA, HB, HC.
      set (tk := mi_rv i && mo_rrd o) in *. change (if mi_we i then fun a => if a =? mi_wa i then mi_wd i else tbl a else tbl) with (tbl' i tbl) in *.
      change (if u_taken (i, o) then [(mi_v i, tbl (mi_v i / p2 (W2 + PO)))] else []) with (new i o tbl) in *.
      pose proof (mm_seg s i) as Eseg. fold o in Eseg. rewrite (iv_flag _ _ _ _ I) in Eseg.
      destruct (mm_flag (fst (step s i))) eqn:Efl.
      + destruct (HB eq_refl) as (Hsent & q & Hin & Hq'). rewrite stuck_run by exact Efl. rewrite app_nil_r.
        assert (exists q, In q (Q2 ++ Q1 ++ new i o tbl ++ lookups PO W2 (tbl' i tbl) (trace step (fst (step s i)) is)) /\ mpd q = false) as Hex.
        { exists q. split; [|exact Hq']. rewrite app_assoc. apply in_or_app. left. exact Hin. }
        split; [|intros; exact Hex]. destruct Hsent as [E|[Hn E]].
        * exists 0%nat. rewrite E. repeat split; lia.
        * rewrite E. destruct (HC ltac:(rewrite E; discriminate)) as [_ Hm]. destruct Q2 as [|q2 Q2]; [congruence|]. exists 1%nat. cbn [app firstn map hd] in *.
          split; [reflexivity|]. split; [cbn [length]; lia|]. cbn [forallb]. rewrite Hm. reflexivity.
      + destruct (HA eq_refl) as (I' & Esent).
        assert (EL : ((if tk then tl Q2 else Q2) ++ (if tr then [hd (0, 0) Q1] else [])) ++ ((if tr then tl Q1 else Q1) ++ new i o tbl) ++ lookups PO W2 (tbl' i tbl) (trace step (fst (step s i)) is)
                    = (if tk then tl Q2 else Q2) ++ Q1 ++ new i o tbl ++ lookups PO W2 (tbl' i tbl) (trace step (fst (step s i)) is)).
        { rewrite <- !app_assoc. f_equal. destruct tr; [|reflexivity]. specialize (HQ1 eq_refl). destruct Q1; [congruence|reflexivity]. }
        destruct (IH _ _ _ _ I') as ((n & En & Hn & Hm) & Hseg).
        * exact (Forall_inv_tail Hq).
        * rewrite Eq in Hs2.
          match type of Hs2 with served _ _ (?a ++ ?b) _ => assert (map (adr AW IB K) (map pair ((if tk then tl Q2 else Q2) ++ (if tr then [hd (0, 0) Q1] else []))) = a ++ b) as -> end; [|exact Hs2].
          rewrite !map_app. f_equal; [|destruct tr; reflexivity]. unfold tk. destruct (mi_rv i), (mo_rrd o), Q2; reflexivity.
        * rewrite EL. destruct tk; [|exact Hf]. destruct Q2; [exact Hf|]. exact (Forall_inv_tail Hf).
        * rewrite EL in En, Hn, Hm, Hseg. split.
          -- destruct tk.
             ++ specialize (HQ2 eq_refl). destruct (HC ltac:(rewrite Esent; discriminate)) as [_ Hm0]. destruct Q2 as [|q2 Q2]; [congruence|].
                exists (S n). cbn [tl app firstn map hd length forallb] in *. rewrite Esent, En. split; [reflexivity|]. split; [apply le_n_S; exact Hn|]. apply andb_true_intro. split; [exact Hm0|exact Hm].
             ++ exists n. rewrite Esent, En. split; [reflexivity|]. split; [exact Hn|exact Hm].
          -- intros y [<-|Hy] Hsg; [cbn [snd] in Hsg; congruence|]. destruct (Hseg y Hy Hsg) as (q & Hin & Hqm). exists q. split; [|exact Hqm].
             destruct tk; [|exact Hin]. destruct Q2; [exact Hin|]. right. exact Hin.
  Qed.
End MmuP.
