From Verif Require Import Base BaseFacts FifoModel FifoProofs HsFifoProofs RamModel RamSpec RamProofs MmuModel MmuSpec MmuProofs MmuRun.
From Coq Require Import NArith.
Open Scope N_scope.

Lemma hs_empty {A} D (s : hsf_st A) : HRep D s [] -> ovld s = false.
Proof. intros (qi & _ & E). destruct (ovld s); [discriminate|reflexivity]. Qed.
Lemma rh_present {A} (u : A) s i : rh_inv s -> (if rs_vld s && ri_drd i then tl (rh_cont s) else rh_cont s) <> [] -> rs_vld (fst (rh_step u s i)) = true.
Proof.
  intros [H1 H2] H. unfold rh_step, rh_cont in *. destruct (rs_pend s), (rs_vld s), (rs_ovld s), (ri_drd i); cbn in *; try reflexivity; try congruence; try discriminate (H1 eq_refl); discriminate (H2 eq_refl).
Qed.

Section Live.
  Variables (AW PO W2 K MO D kb ks : nat) (mem : N -> N) (u : N).
  Hypothesis Hmem : forall a, mem a < 256.
  Hypothesis HAW : AW = (8 * 2 ^ kb)%nat. Hypothesis Hkb : (1 <= kb)%nat.
  Hypothesis HK : K = (2 ^ ks)%nat. Hypothesis HD : (2 <= D)%nat. Hypothesis HMO : (4 <= MO)%nat.
  Notation IB := (AW / 8)%nat.
  Notation step := (mm_step AW PO W2 K MO D u).
  Notation phys := (physical mem AW PO W2).
  Notation mpd := (mapped mem AW PO W2).
  Notation inv := (inv PO W2 K MO D).
  Notation pair := (pair PO W2).
  Notation ag_show := (ag_show K).

  Definition P1 (s : mm_st) : Prop := rs_vld (mm_ram s) = true /\ ovld (mm_i2 s) = true.
  Definition willing (i : mm_in) : Prop := mi_vv i = false /\ mi_prd i = true /\ mi_qrd i = true.

  Lemma mm_go s Q1 Q2 tbl i : inv s Q1 Q2 tbl -> willing i -> (Q2 <> [] -> mi_rv i = true) ->
    let s' := fst (step s i) in let o := snd (step s i) in
    let tr := match mo_req o with Some _ => true | None => false end in let tk := mi_rv i && mo_rrd o in
    ((if tr then tl Q1 else Q1) <> [] -> P1 s') /\
    ((if tk then tl (Q2 ++ Q1) else Q2 ++ Q1) <> [] -> ovld (mm_po s') = true) /\
    ((if tk then tl Q2 else Q2) <> [] -> ag_show (mm_get s') = true) /\
    (Q2 <> [] -> ag_show (mm_get s) = true -> ovld (mm_po s) = true -> tk = true) /\
    (Q2 = [] -> P1 s -> tr = true).
  Proof.
    intros I (Hvv & Hprd & Hqrd) Hrv. destruct I as [Ifl Iram Icont Ii2 Ipo Iget Ieven Itbl].
    assert (HM2' : (2 <= MO / 2)%nat) by (clear - HMO; apply Nat.div_le_lower_bound; lia). assert (2 <= MO)%nat as HMO2 by lia.
    unfold mm_step. rewrite Ifl. cbn [negb]. rewrite andb_true_r.
    set (gi := mk_agi (rs_data (mm_ram s)) (rs_vld (mm_ram s) && ovld (mm_i2 s)) (dreg (hf (mm_i2 s))) (mi_qrd i) (mi_rv i) (mi_r i) (ovld (mm_po s) && mi_prd i)) in *.
    destruct (ag_ok AW IB K D HD (mm_get s) _ gi Iget) as (GR & Gq & Gi & Gt & _).
    destruct (ag_go AW IB K D HD (mm_get s) _ gi Iget Hqrd) as (G1 & G2 & G3 & G4).
    destruct (ag_step AW IB K D (mm_get s) gi) as [g' go] eqn:Eg. cbn [fst snd] in GR, Gq, Gi, Gt, G1, G2, G3, G4.
    set (ri := mk_ri (mi_vv i && negb (f_wwait (hf (mm_i2 s))) && negb (f_wwait (hf (mm_po s)))) (N.to_nat (mm_l1 PO W2 (mi_v i))) (ovld (mm_i2 s) && go_ird go) (mi_we i) (N.to_nat (mi_wa i)) (mi_wd i)) in *.
    pose proof (rh_present u (mm_ram s) ri Iram) as RP. rewrite Icont in RP.
    destruct (rh_step u (mm_ram s) ri) as [ram' ro] eqn:Er. cbn [fst snd] in RP.
    set (i2i := mk_hin (mi_vv i && ro_ard ro && negb (f_wwait (hf (mm_po s)))) (mm_l2 PO W2 (mi_v i)) (rs_vld (mm_ram s) && go_ird go)) in *.
    pose proof (hs_present (MO / 2) HM2' _ _ i2i Ii2) as H2.
    destruct (hsf_step (MO / 2) (mm_i2 s) i2i) as [i2' i2o]. cbn [fst snd] in H2.
    set (itv := match go_item go with Some _ => true | None => false end) in *.
    set (poi := mk_hin (mi_vv i && ro_ard ro && negb (f_wwait (hf (mm_i2 s)))) (mm_off PO (mi_v i)) (itv && mi_prd i)) in *.
    pose proof (hs_present MO HMO2 _ _ poi Ipo) as H3.
    destruct (hsf_step MO (mm_po s) poi) as [po' poo]. cbn [fst snd] in H3.
    cbn [fst snd mm_flag mo_vrd mo_p mo_req mo_rrd mo_seg mm_ram mm_i2 mm_po mm_get].
    assert (Ht : match go_req go with Some _ => true | None => false end = rs_vld (mm_ram s) && ovld (mm_i2 s) && go_ird go).
    { cbn [gi gi_qrd] in Gq. rewrite Hqrd in Gq. rewrite Gq. unfold g_acc, gi. cbn [gi_iv]. destruct (rs_vld (mm_ram s) && ovld (mm_i2 s) && go_ird go); reflexivity. }
    rewrite Ht. split; [|split; [|split; [|split]]].
    - intros H. split; cbn [mm_ram mm_i2].
      + apply RP. cbn [ri ri_drd]. intros E. apply H. rewrite andb_assoc in E. destruct (rs_vld (mm_ram s) && ovld (mm_i2 s) && go_ird go), Q1 as [|x [|y l]]; try reflexivity; discriminate.
      + apply H2. cbn [i2i i_rd]. intros E. apply H. rewrite andb_assoc, (andb_comm (ovld _)) in E. destruct (rs_vld (mm_ram s) && ovld (mm_i2 s) && go_ird go), Q1 as [|x [|y l]]; try reflexivity; discriminate.
    - intros H. apply H3. cbn [poi i_rd]. change (mi_rv i && go_rrd go) with (g_tk gi go) in H. rewrite Gt in H. cbn [gi gi_rd] in H.
      replace (ovld (mm_po s) && (itv && mi_prd i)) with (match go_item go with Some _ => ovld (mm_po s) && mi_prd i | None => false end)
        by (unfold itv; destruct (go_item go), (ovld (mm_po s)); reflexivity).
      intros E. apply H. destruct (match go_item go with Some _ => ovld (mm_po s) && mi_prd i | None => false end), (Q2 ++ Q1) as [|x [|y l]]; try reflexivity; discriminate.
    - intros H. apply G1. change (mi_rv i && go_rrd go) with (g_tk gi go) in H. intros E. apply H.
      destruct (g_tk gi go), Q2 as [|x [|y l]]; try reflexivity; discriminate.
    - intros Hq Hs Hp. rewrite (Hrv Hq), (G3 Hs). cbn [gi gi_rd]. rewrite Hp, Hprd. reflexivity.
    - intros -> [Hl Hi]. rewrite Hl, Hi, (G2 eq_refl). reflexivity.
  Qed.

  Definition mu (s : mm_st) (Q1 Q2 : list (N * N)) : nat := 3 * length Q1 + 2 * length Q2 + (if ag_show (mm_get s) then 0 else 1).

  Lemma mm_live js : forall s Q1 Q2 tbl, inv s Q1 Q2 tbl ->
    let t := trace step s js in
    (Q1 <> [] -> P1 s) -> (Q2 ++ Q1 <> [] -> ovld (mm_po s) = true) -> Forall willing js -> Forall u_quiet t ->
    served mem (K * IB) (map (adr AW IB K) (map pair Q2)) (map u_bus t) -> prompt (map (adr AW IB K) (map pair Q2)) (map u_bus t) ->
    Forall (tfit AW W2) (Q2 ++ Q1) -> forallb mpd (Q2 ++ Q1) = true -> (Q2 ++ Q1 = [] \/ (mu s Q1 Q2 <= length js)%nat) ->
    flat_map u_sent t = map phys (Q2 ++ Q1).
  Proof.
    induction js as [|i js IH]; intros s Q1 Q2 tbl I t HP1 HPo Hw Hq Hs Hp Hf Hm Hmu.
    - unfold mu in Hmu. cbn [length] in Hmu. destruct Q1, Q2; cbn [length app] in Hmu; try (destruct Hmu; [discriminate|lia]). reflexivity.
    - subst t. rewrite trace_cons in *. set (o := snd (step s i)) in *. cbn [flat_map map] in *.
      pose proof (Forall_inv Hw) as Hwi. cbn [served prompt] in Hs, Hp. unfold u_bus at 1 in Hs. unfold u_bus at 1 in Hp. cbn [fst snd] in Hs, Hp. destruct Hs as [Hs1 Hs2]. destruct Hp as [Hp1 Hp2].
      assert (Hf2 : Forall (tfit AW W2) Q2) by (apply Forall_app in Hf; apply Hf).
      assert (Hrv : Q2 <> [] -> mi_rv i = true).
      { intros H. destruct (mi_rv i); [reflexivity|]. exfalso. apply Hp1; [destruct Q2; [congruence|discriminate]|reflexivity]. }
      destruct (mm_ok AW PO W2 K MO D kb ks mem u Hmem HAW Hkb HK HD HMO s Q1 Q2 tbl i I (Forall_inv Hq) Hf2 Hs1) as (tr & HQ1 & Eq & HQ2 & HA & HB & HC). fold o in Eq, HQ2, HA, HB, HC.
      destruct (mm_go s Q1 Q2 tbl i I Hwi Hrv) as (J1 & J2 & J3 & J4 & J5). fold o in J1, J2, J3, J4, J5.
      destruct Hwi as (Hvv & Hprd & Hqrd).
      assert (Etr : match mo_req o with Some _ => true | None => false end = tr) by (rewrite Hqrd in Eq; rewrite Eq; destruct tr; reflexivity).
      rewrite Etr in *.
      set (tk := mi_rv i && mo_rrd o) in *.
      destruct (mm_flag (fst (step s i))) eqn:Efl.
      { destruct (HB eq_refl) as (_ & q & Hin & Hqm). rewrite forallb_forall in Hm. rewrite (Hm q Hin) in Hqm. discriminate. }
      destruct (HA eq_refl) as (I' & Esent).
      assert (new PO W2 i o tbl = []) as En by (unfold new, u_taken; cbn [fst]; rewrite Hvv; reflexivity). rewrite En, app_nil_r in I'.
      assert (E1 : (if tr then [hd (0, 0) Q1] else []) ++ (if tr then tl Q1 else Q1) = Q1).
      { destruct tr; [|reflexivity]. specialize (HQ1 eq_refl). destruct Q1; [congruence|reflexivity]. }
      assert (EQ : ((if tk then tl Q2 else Q2) ++ (if tr then [hd (0, 0) Q1] else [])) ++ (if tr then tl Q1 else Q1) = (if tk then tl (Q2 ++ Q1) else Q2 ++ Q1)).
      { rewrite <- app_assoc, E1. destruct tk; [|reflexivity]. specialize (HQ2 eq_refl). destruct Q2; [congruence|reflexivity]. }
      assert (HQ12 : Q2 ++ Q1 = (if tk then [hd (0,0) Q2] else []) ++ (if tk then tl (Q2 ++ Q1) else Q2 ++ Q1)).
      { destruct tk; [|reflexivity]. specialize (HQ2 eq_refl). destruct Q2; [congruence|reflexivity]. }
      rewrite (IH _ _ _ _ I').
      + rewrite EQ, Esent, (f_equal (map phys) HQ12), map_app. destruct tk; reflexivity.
      + exact J1.
      + rewrite EQ. exact J2.
      + exact (Forall_inv_tail Hw).
      + exact (Forall_inv_tail Hq).
      + rewrite Eq in Hs2.
        match type of Hs2 with served _ _ (?a ++ ?b) _ => assert (map (adr AW IB K) (map pair ((if tk then tl Q2 else Q2) ++ (if tr then [hd (0, 0) Q1] else []))) = a ++ b) as -> end; [|exact Hs2].
        rewrite !map_app. f_equal; [|destruct tr; reflexivity]. unfold tk. destruct (mi_rv i), (mo_rrd o), Q2; reflexivity.
      + rewrite Eq in Hp2.
        match type of Hp2 with prompt (?a ++ ?b) _ => assert (map (adr AW IB K) (map pair ((if tk then tl Q2 else Q2) ++ (if tr then [hd (0, 0) Q1] else []))) = a ++ b) as -> end; [|exact Hp2].
        rewrite !map_app. f_equal; [|destruct tr; reflexivity]. unfold tk. destruct (mi_rv i), (mo_rrd o), Q2; reflexivity.
      + rewrite EQ. rewrite HQ12 in Hf. apply Forall_app in Hf. apply Hf.
      + rewrite EQ. rewrite HQ12, forallb_app in Hm. apply andb_prop in Hm. apply Hm.
      + rewrite EQ. unfold mu in Hmu |- *. cbn [length] in Hmu. rewrite app_length.
        assert (Hsh : forall b : bool, ((if b then 0 else 1) <= 1)%nat) by (intros []; lia).
        destruct Q2 as [|q2 Q2].
        * assert (tk = false) as Etk by (destruct tk; [exfalso; exact (HQ2 eq_refl eq_refl)|reflexivity]). rewrite Etk in *.
          destruct Q1 as [|q1 Q1]; [left; reflexivity|]. right. destruct Hmu as [Hmu|Hmu]; [discriminate|].
          rewrite (J5 eq_refl (HP1 ltac:(discriminate))) in *. cbn [length tl hd] in *. pose proof (Hsh (ag_show (mm_get (fst (step s i))))).
          destruct (ag_show (mm_get s)) eqn:Eg; [|lia]. unfold ag_show in Eg. destruct (iv_get _ _ _ _ _ _ _ _ _ I) as [EK|R].
          -- unfold ag_show. rewrite EK. cbn. lia.
          -- cbn [map] in R. rewrite (hs_empty _ _ R), orb_false_r in Eg. unfold ag_show. rewrite Eg. cbn. lia.
        * right. destruct Hmu as [Hmu|Hmu]; [discriminate|]. assert (length (if tr then tl Q1 else Q1) * 3 + 2 * length (if tr then [hd (0%N,0%N) Q1] else []) <= 3 * length Q1)%nat as L1.
          { destruct tr; [|cbn [length]; lia]. specialize (HQ1 eq_refl). destruct Q1; [congruence|]. cbn [tl length]. lia. }
          destruct (ag_show (mm_get s)) eqn:Eg.
          -- rewrite (J4 ltac:(discriminate) eq_refl (HPo ltac:(discriminate))). cbn [tl length] in *. pose proof (Hsh (ag_show (mm_get (fst (step s i))))). lia.
          -- destruct tk; cbn [tl length] in *; [pose proof (Hsh (ag_show (mm_get (fst (step s i))))); lia|]. rewrite (J3 ltac:(discriminate)). lia.
  Qed.

  Lemma mm_first i js : forall s Q1 Q2 tbl, inv s Q1 Q2 tbl ->
    let t := trace step s (i :: js) in
    Forall willing (i :: js) -> Forall u_quiet t ->
    served mem (K * IB) (map (adr AW IB K) (map pair Q2)) (map u_bus t) -> prompt (map (adr AW IB K) (map pair Q2)) (map u_bus t) ->
    Forall (tfit AW W2) (Q2 ++ Q1) -> forallb mpd (Q2 ++ Q1) = true -> (3 * length (Q2 ++ Q1) + 2 <= length (i :: js))%nat ->
    flat_map u_sent t = map phys (Q2 ++ Q1).
  Proof.
    intros s Q1 Q2 tbl I t Hw Hq Hs Hp Hf Hm Hmu.
    subst t. rewrite trace_cons in *. set (o := snd (step s i)) in *. cbn [flat_map map] in *.
      pose proof (Forall_inv Hw) as Hwi. cbn [served prompt] in Hs, Hp. unfold u_bus at 1 in Hs. unfold u_bus at 1 in Hp. cbn [fst snd] in Hs, Hp. destruct Hs as [Hs1 Hs2]. destruct Hp as [Hp1 Hp2].
      assert (Hf2 : Forall (tfit AW W2) Q2) by (apply Forall_app in Hf; apply Hf).
      assert (Hrv : Q2 <> [] -> mi_rv i = true).
      { intros H. destruct (mi_rv i); [reflexivity|]. exfalso. apply Hp1; [destruct Q2; [congruence|discriminate]|reflexivity]. }
      destruct (mm_ok AW PO W2 K MO D kb ks mem u Hmem HAW Hkb HK HD HMO s Q1 Q2 tbl i I (Forall_inv Hq) Hf2 Hs1) as (tr & HQ1 & Eq & HQ2 & HA & HB & HC). fold o in Eq, HQ2, HA, HB, HC.
      destruct (mm_go s Q1 Q2 tbl i I Hwi Hrv) as (J1 & J2 & J3 & J4 & J5). fold o in J1, J2, J3, J4, J5.
      destruct Hwi as (Hvv & Hprd & Hqrd).
      assert (Etr : match mo_req o with Some _ => true | None => false end = tr) by (rewrite Hqrd in Eq; rewrite Eq; destruct tr; reflexivity).
      rewrite Etr in *.
      set (tk := mi_rv i && mo_rrd o) in *.
      destruct (mm_flag (fst (step s i))) eqn:Efl.
      { destruct (HB eq_refl) as (_ & q & Hin & Hqm). rewrite forallb_forall in Hm. rewrite (Hm q Hin) in Hqm. discriminate. }
      destruct (HA eq_refl) as (I' & Esent).
      assert (new PO W2 i o tbl = []) as En by (unfold new, u_taken; cbn [fst]; rewrite Hvv; reflexivity). rewrite En, app_nil_r in I'.
      assert (E1 : (if tr then [hd (0, 0) Q1] else []) ++ (if tr then tl Q1 else Q1) = Q1).
      { destruct tr; [|reflexivity]. specialize (HQ1 eq_refl). destruct Q1; [congruence|reflexivity]. }
      assert (EQ : ((if tk then tl Q2 else Q2) ++ (if tr then [hd (0, 0) Q1] else [])) ++ (if tr then tl Q1 else Q1) = (if tk then tl (Q2 ++ Q1) else Q2 ++ Q1)).
      { rewrite <- app_assoc, E1. destruct tk; [|reflexivity]. specialize (HQ2 eq_refl). destruct Q2; [congruence|reflexivity]. }
      assert (HQ12 : Q2 ++ Q1 = (if tk then [hd (0,0) Q2] else []) ++ (if tk then tl (Q2 ++ Q1) else Q2 ++ Q1)).
      { destruct tk; [|reflexivity]. specialize (HQ2 eq_refl). destruct Q2; [congruence|reflexivity]. }
      rewrite (mm_live js _ _ _ _ I').
      + rewrite EQ, Esent, (f_equal (map phys) HQ12), map_app. destruct tk; reflexivity.
      + exact J1.
      + rewrite EQ. exact J2.
      + exact (Forall_inv_tail Hw).
      + exact (Forall_inv_tail Hq).
      + rewrite Eq in Hs2.
        match type of Hs2 with served _ _ (?a ++ ?b) _ => assert (map (adr AW IB K) (map pair ((if tk then tl Q2 else Q2) ++ (if tr then [hd (0, 0) Q1] else []))) = a ++ b) as -> end; [|exact Hs2].
        rewrite !map_app. f_equal; [|destruct tr; reflexivity]. unfold tk. destruct (mi_rv i), (mo_rrd o), Q2; reflexivity.
      + rewrite Eq in Hp2.
        match type of Hp2 with prompt (?a ++ ?b) _ => assert (map (adr AW IB K) (map pair ((if tk then tl Q2 else Q2) ++ (if tr then [hd (0, 0) Q1] else []))) = a ++ b) as -> end; [|exact Hp2].
        rewrite !map_app. f_equal; [|destruct tr; reflexivity]. unfold tk. destruct (mi_rv i), (mo_rrd o), Q2; reflexivity.
      + rewrite EQ. rewrite HQ12 in Hf. apply Forall_app in Hf. apply Hf.
      + rewrite EQ. rewrite HQ12, forallb_app in Hm. apply andb_prop in Hm. apply Hm.
      + right. unfold mu. cbn [length] in Hmu.
        assert (Hsh : forall b : bool, ((if b then 0 else 1) <= 1)%nat) by (intros []; lia). specialize (Hsh (ag_show (mm_get (fst (step s i))))).
        assert (length ((if tk then tl Q2 else Q2) ++ (if tr then [hd (0%N, 0%N) Q1] else [])) + length (if tr then tl Q1 else Q1) <= length (Q2 ++ Q1))%nat as HL.
        { rewrite <- app_length, EQ. destruct tk; [|lia]. destruct (Q2 ++ Q1); cbn [tl length]; lia. }
        lia.
  Qed.

  Lemma mm_prog js is : forall s Q1 Q2 tbl, inv s Q1 Q2 tbl ->
    let t := trace step s (is ++ js) in let L := Q2 ++ Q1 ++ lookups PO W2 tbl t in let pend := map (adr AW IB K) (map pair Q2) in
    Forall willing js -> Forall u_quiet t -> served mem (K * IB) pend (map u_bus t) ->
    prompt (pending pend (map u_bus (trace step s is))) (map u_bus (trace step (final step s is) js)) ->
    Forall (tfit AW W2) L -> forallb mpd L = true -> (3 * length L + 2 <= length js)%nat ->
    flat_map u_sent t = map phys L.
  Proof.
    assert (HL0 : forall js tbl s, Forall willing js -> lookups PO W2 tbl (trace step s js) = []).
    { clear. induction js as [|i js IH]; intros tbl s H; [reflexivity|]. rewrite trace_cons. cbn [lookups]. unfold u_taken. cbn [fst].
      rewrite (proj1 (Forall_inv H)). cbn [andb app]. apply IH. exact (Forall_inv_tail H). }
    induction is as [|i is IH]; intros s Q1 Q2 tbl I t L pend Hw Hq Hs Hp Hf Hm Hl.
    - subst L. cbn [app] in t. change (trace step s []) with (@nil uc) in Hp. cbn [map pending] in Hp. rewrite final_nil in Hp.
      unfold t in Hf, Hm, Hl |- *. cbn [app] in Hf, Hm, Hl |- *. rewrite HL0 in Hf, Hm, Hl |- * by exact Hw. rewrite app_nil_r in Hf, Hm, Hl |- *. destruct js as [|j js]; [cbn [length] in Hl; lia|].
      exact (mm_first j js s Q1 Q2 tbl I Hw Hq Hs Hp Hf Hm Hl).
    - subst L t pend. cbn [app] in *. rewrite !trace_cons in *. rewrite final_cons in Hp. set (o := snd (step s i)) in *. cbn [flat_map map lookups fst snd] in *.
      cbn [served pending] in Hs, Hp. unfold u_bus at 1 in Hs. unfold u_bus at 1 in Hp. cbn [fst snd] in Hs, Hp. destruct Hs as [Hs1 Hs2].
      assert (Hf2 : Forall (tfit AW W2) Q2) by (apply Forall_app in Hf; apply Hf).
      destruct (mm_ok AW PO W2 K MO D kb ks mem u Hmem HAW Hkb HK HD HMO s Q1 Q2 tbl i I (Forall_inv Hq) Hf2 Hs1) as (tr & HQ1 & Eq & HQ2 & HA & HB & HC). fold o in Eq, HQ2, HA, HB, HC.
      set (tk := mi_rv i && mo_rrd o) in *. change (if mi_we i then fun a => if a =? mi_wa i then mi_wd i else tbl a else tbl) with (tbl' i tbl) in *.
      change (if u_taken (i, o) then [(mi_v i, tbl (mi_v i / p2 (W2 + PO)))] else []) with (new PO W2 i o tbl) in *.
      set (T := trace step (fst (step s i)) (is ++ js)) in *. set (LK := lookups PO W2 (tbl' i tbl) T) in *.
      destruct (mm_flag (fst (step s i))) eqn:Efl.
      { destruct (HB eq_refl) as (_ & q & Hin & Hqm). rewrite forallb_forall in Hm. rewrite (Hm q) in Hqm; [discriminate|]. rewrite app_assoc. apply in_or_app. left. exact Hin. }
      destruct (HA eq_refl) as (I' & Esent).
      assert (EL : ((if tk then tl Q2 else Q2) ++ (if tr then [hd (0, 0) Q1] else [])) ++ ((if tr then tl Q1 else Q1) ++ new PO W2 i o tbl) ++ LK
                    = (if tk then tl Q2 else Q2) ++ Q1 ++ new PO W2 i o tbl ++ LK).
      { rewrite <- !app_assoc. f_equal. destruct tr; [|reflexivity]. specialize (HQ1 eq_refl). destruct Q1; [congruence|reflexivity]. }
      assert (ES : Q2 ++ Q1 ++ new PO W2 i o tbl ++ LK = (if tk then [hd (0,0) Q2] else []) ++ (if tk then tl Q2 else Q2) ++ Q1 ++ new PO W2 i o tbl ++ LK).
      { destruct tk; [|reflexivity]. specialize (HQ2 eq_refl). destruct Q2; [congruence|reflexivity]. }
      assert (EP : forall r, match (if mi_rv i then Some (mi_r i) else None) with Some _ => if mo_rrd o then tl (map (adr AW IB K) (map pair Q2)) else map (adr AW IB K) (map pair Q2) | None => map (adr AW IB K) (map pair Q2) end ++ match (if tr then Some r else None) with Some a => [a] | None => [] end
              = map (adr AW IB K) (map pair (if tk then tl Q2 else Q2)) ++ if tr then [r] else []).
      { intros r. f_equal; [|destruct tr; reflexivity]. unfold tk. destruct (mi_rv i), (mo_rrd o), Q2; reflexivity. }
      rewrite Eq, EP in Hs2, Hp.
      assert (EP2 : map (adr AW IB K) (map pair ((if tk then tl Q2 else Q2) ++ (if tr then [hd (0, 0) Q1] else []))) = map (adr AW IB K) (map pair (if tk then tl Q2 else Q2)) ++ (if tr then [adr AW IB K (pair (hd (0, 0) Q1))] else [])).
      { rewrite !map_app. destruct tr; reflexivity. }
      unfold T. rewrite (IH _ _ _ _ I' Hw).
      + fold T. fold LK. rewrite EL, (f_equal (map phys) ES), Esent, !map_app. destruct tk; reflexivity.
      + exact (Forall_inv_tail Hq).
      + rewrite EP2. exact Hs2.
      + rewrite EP2. exact Hp.
      + fold T. fold LK. rewrite EL. rewrite ES in Hf. apply Forall_app in Hf. apply Hf.
      + fold T. fold LK. rewrite EL. rewrite ES, forallb_app in Hm. apply andb_prop in Hm. apply Hm.
      + fold T. fold LK. rewrite EL. rewrite ES, app_length in Hl. lia.
  Qed.
End Live.
