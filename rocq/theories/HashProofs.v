From Verif Require Import Base BaseFacts HsRegModel RamModel RamSpec RamProofs HashModel HashSpec.
From Coq Require Import NArith.

Lemma p2_pos n : (0 < p2 n)%N.
Proof. unfold p2. apply N.neq_0_lt_0, N.pow_nonzero. discriminate. Qed.
Lemma rec_parse KW DW k d v : (k < p2 KW)%N -> (d < p2 DW)%N ->
  ht_key KW DW (ht_rec DW k d v) = k /\ ht_data DW (ht_rec DW k d v) = d /\ ht_vld (ht_rec DW k d v) = v.
Proof.
  intros Hk Hd. unfold ht_key, ht_data, ht_vld, ht_rec. pose proof (p2_pos DW) as HD. pose proof (p2_pos KW) as HK.
  assert (p2 (DW + 1) = 2 * p2 DW)%N as E. { unfold p2. rewrite Nat2N.inj_add, N.pow_add_r. change (2 ^ N.of_nat 1)%N with 2%N. apply N.mul_comm. }
  rewrite E. set (b := if v then 1%N else 0%N). assert (b < 2)%N as Hb by (unfold b; destruct v; lia).
  set (D := p2 DW) in *. split; [|split].
  - replace (k * (2 * D) + d * 2 + b)%N with (d * 2 + b + k * (2 * D))%N by lia. rewrite N.div_add by lia. rewrite N.div_small by lia.
    apply N.mod_small. lia.
  - replace (k * (2 * D) + d * 2 + b)%N with (b + (d + k * D) * 2)%N by lia. rewrite N.div_add by lia. rewrite N.div_small by lia.
    cbn [N.add]. rewrite N.mod_add by lia. apply N.mod_small. lia.
  - replace (k * (2 * D) + d * 2 + b)%N with (b + 2 * (d + k * D))%N by lia. rewrite N.odd_add_mul_2. unfold b. destruct v; reflexivity.
Qed.

Section Hash.
  Variables (KW DW AW : nat) (hash : N -> N) (u : N).
  Notation step lh := (ht_step KW DW AW lh hash u).
  Notation fit := (ht_fit AW hash).
  Definition ans (lh : bool) (p : N * N) : ht_res :=
    mk_htr (if lh then Some (fit (fst p)) else None) (ht_key KW DW (snd p)) (ht_data DW (snd p)) (ht_vld (snd p)) ((fst p =? ht_key KW DW (snd p))%N && ht_vld (snd p)).
  (** the lookups on the way with the words read for them *)
  Definition on_way (lh : bool) (s : ht_st) (P : list (N * N)) : Prop :=
    rh_inv (ht_ram s) /\ exists k0 k1 h0 h1 (o0 := rs_pend (ht_ram s) || rs_ovld (ht_ram s)) (o1 := rs_vld (ht_ram s)),
      ht_ks s = [mk_stage KLat o0 k0; mk_stage KLat o1 k1] /\
      ht_hs s = [mk_stage KLat (lh && o0) h0; mk_stage KLat (lh && o1) h1] /\
      (lh && o0 = true -> h0 = fit k0) /\ (lh && o1 = true -> h1 = fit k1) /\
      P = (if o1 then [(k1, rs_data (ht_ram s))] else []) ++ (if o0 then [(k0, if rs_ovld (ht_ram s) then rs_odata (ht_ram s) else rs_dout (ht_ram s))] else []).

  Lemma ht_ok lh s P i : on_way lh s P -> let c := (i, snd (step lh s i)) in
    exists P', on_way lh (fst (step lh s i)) P' /\
      map (ans lh) P ++ (if h_looked c then [ans lh (hi_key i, rs_mem (ht_ram s) (N.to_nat (fit (hi_key i))))] else []) =
        (if ho_rv (snd c) && hi_rr i then [ho_res (snd c)] else []) ++ map (ans lh) P' /\
      (forall a, rs_mem (ht_ram (fst (step lh s i))) a =
         (if h_inserted c then upd (rs_mem (ht_ram s)) (N.to_nat (hi_ih i)) (ht_rec DW (hi_ik i) (hi_id i) (hi_ii i)) else rs_mem (ht_ram s)) a) /\
      (h_looked c = true -> h_inserted c = false) /\ (hi_rr i = true -> ho_lrd (snd c) = true) /\ (h_looked c = false -> ho_ird (snd c) = true) /\
      (h_looked c = true -> rs_pend (ht_ram (fst (step lh s i))) = true) /\ (rs_pend (ht_ram s) = true -> rs_vld (ht_ram (fst (step lh s i))) = true) /\
      (rs_vld (ht_ram s) = true -> ho_rv (snd c) = true).
  Proof.
    intros [[Hi1 Hi2] [k0 [k1 [h0 [h1 [E1 [E2 [H0 [H1 ->]]]]]]]]].
    destruct s as [[m dout pend vld data ovld odata] ks hs], i as [lv key rr iv ih ik id ii].
    cbn [ht_ram ht_ks ht_hs rs_mem rs_dout rs_pend rs_vld rs_data rs_ovld rs_odata] in *. subst ks hs.
    set (c := (_, _)). cbv zeta.
    destruct pend; [rewrite (Hi1 eq_refl) in *; destruct vld|destruct vld; [destruct ovld|destruct ovld; [discriminate (Hi2 eq_refl)|]]];
      destruct lh; cbn [andb orb negb] in *; try (specialize (H0 eq_refl)); try (specialize (H1 eq_refl)); try subst h0; try subst h1;
      destruct rr, lv, iv; subst c; unfold ht_step, h_looked, h_inserted; cbn -[ans fit ht_key ht_data ht_vld ht_rec upd N.to_nat];
      eexists; (split; [unfold on_way, rh_inv; cbn -[fit ht_rec upd N.to_nat]; split; [split; intros; congruence|]; do 4 eexists; repeat split; try reflexivity; intros; try discriminate; try reflexivity|]);
      repeat split; intros; try reflexivity; try discriminate.
  Qed.
End Hash.

Section Run.
  Variables (KW DW AW : nat) (lh : bool) (hash : N -> N) (u : N).
  Notation step := (ht_step KW DW AW lh hash u).
  Definition mrep (s : ht_st) (m : N -> item) : Prop :=
    forall n, item_fits KW DW (m n) /\ rs_mem (ht_ram s) (N.to_nat n) = let '(k, d, v) := m n in ht_rec DW k d v.

  Lemma ans_rep s m k : mrep s m -> ans KW DW AW hash lh (k, rs_mem (ht_ram s) (N.to_nat (ht_fit AW hash k))) = h_answer AW lh hash m k.
  Proof.
    intros H. unfold ans, h_answer. cbn [fst snd]. change (slot AW hash k) with (ht_fit AW hash k). destruct (H (ht_fit AW hash k)) as [F ->].
    destruct (m (ht_fit AW hash k)) as [[k' d] v]. destruct F as [F1 F2]. destruct (rec_parse KW DW k' d v F1 F2) as [-> [-> ->]]. rewrite andb_comm. reflexivity.
  Qed.
  Lemma mrep_step s m i P : on_way AW hash lh s P -> mrep s m -> h_fits KW DW i -> mrep (fst (step s i)) (if h_inserted (i, snd (step s i)) then h_insert i m else m).
  Proof.
    intros HP H F n. destruct (ht_ok KW DW AW hash u lh s P i HP) as [P' [_ [_ [Hm _]]]]. rewrite Hm. destruct (h_inserted _); [|apply H].
    unfold h_insert, upd. destruct (N.eqb_spec n (hi_ih i)) as [-> |Hn].
    - rewrite Nat.eqb_refl. split; [apply F|reflexivity].
    - destruct (Nat.eqb_spec (N.to_nat n) (N.to_nat (hi_ih i))) as [E|_]; [apply N2Nat.inj in E; contradiction|]. apply H.
  Qed.
  Lemma way_len s P : on_way AW hash lh s P -> length P <= 2.
  Proof. intros [_ [k0 [k1 [h0 [h1 [_ [_ [_ [_ ->]]]]]]]]]. rewrite app_length. destruct (rs_vld _), (rs_pend _ || rs_ovld _); cbn; lia. Qed.

  Lemma ht_run is : forall s m P, on_way AW hash lh s P -> mrep s m -> Forall (h_fits KW DW) is ->
    exists P', on_way AW hash lh (final step s is) P' /\
      map (ans KW DW AW hash lh) P ++ h_answers AW lh hash m (trace step s is) = h_results (trace step s is) ++ map (ans KW DW AW hash lh) P'.
  Proof.
    induction is as [|i is IH]; intros s m P HP Hm HF.
    - exists P. split; [exact HP|]. cbn. rewrite app_nil_r. reflexivity.
    - inversion_clear HF as [|? ? F1 F2]. rewrite final_cons, trace_cons. destruct (ht_ok KW DW AW hash u lh s P i HP) as [P1 [HP1 [E [_ _]]]].
      destruct (IH _ _ P1 HP1 (mrep_step s m i P HP Hm F1) F2) as [P' [HP' E']]. exists P'. split; [exact HP'|].
      cbn [h_answers]. unfold h_results. cbn [flat_map fst snd]. fold (h_results (trace step (fst (step s i)) is)).
      cbn zeta in E. cbn [fst snd] in E. rewrite (ans_rep s m _ Hm) in E. rewrite <- app_assoc, <- E', !app_assoc, E. reflexivity.
  Qed.

  Variables (it : nat -> item) (a b c : N) (e : nat -> N).
  Hypothesis Hit : forall n, item_fits KW DW (it n).
  Notation init := (ht_init DW it a b c e).
  Lemma way0 : on_way AW hash lh init [].
  Proof. split; [split; discriminate|]. do 4 eexists. cbn. rewrite !andb_false_r. repeat split; discriminate. Qed.
  Lemma mrep0 : mrep init (fun n => it (N.to_nat n)).
  Proof. intros n. split; [apply Hit|reflexivity]. Qed.
  Lemma way_run is : exists P, on_way AW hash lh (final step init is) P.
  Proof.
    induction is as [|i is IH] using rev_ind; [eexists; exact way0|]. destruct IH as [P HP]. rewrite final_snoc.
    destruct (ht_ok KW DW AW hash u lh _ P i HP) as [P' [H _]]. eexists. exact H.
  Qed.
End Run.

Lemma ht_all KW DW AW lh hash u it a b c e is : (forall n, item_fits KW DW (it n)) -> Forall (h_fits KW DW) is ->
  let t := trace (ht_step KW DW AW lh hash u) (ht_init DW it a b c e) is in
  exists inside, h_answers AW lh hash (fun n => it (N.to_nat n)) t = h_results t ++ inside /\ length inside <= 2.
Proof.
  intros Hit HF t. destruct (ht_run KW DW AW lh hash u is _ _ _ (way0 DW AW lh hash it a b c e) (mrep0 KW DW it a b c e Hit) HF) as [P' [HP' E]].
  exists (map (ans KW DW AW hash lh) P'). split; [exact E|]. rewrite map_length. apply (way_len _ _ _ _ _ HP').
Qed.
Lemma ht_live KW DW AW lh hash u it a b c e is i j k :
  let s := final (ht_step KW DW AW lh hash u) (ht_init DW it a b c e) is in
  let x := (i, snd (ht_step KW DW AW lh hash u s i)) in
  (hi_rr i = true -> ho_lrd (snd x) = true) /\ (h_looked x = true -> ho_ird (snd x) = true -> hi_iv i = false) /\ (h_looked x = false -> ho_ird (snd x) = true) /\
  (h_looked x = true -> ho_rv (snd (ht_step KW DW AW lh hash u (final (ht_step KW DW AW lh hash u) s [i; j]) k)) = true).
Proof.
  intros s x. destruct (way_run KW DW AW lh hash u it a b c e is) as [P HP]. fold s in HP.
  destruct (ht_ok KW DW AW hash u lh s P i HP) as [P1 [HP1 [_ [_ [X1 [X2 [X3 [X4 _]]]]]]]]. fold x in X1, X2, X3, X4.
  destruct (ht_ok KW DW AW hash u lh _ P1 j HP1) as [P2 [HP2 [_ [_ [_ [_ [_ [_ [Y _]]]]]]]]].
  destruct (ht_ok KW DW AW hash u lh _ P2 k HP2) as [P3 [_ [_ [_ [_ [_ [_ [_ [_ Z]]]]]]]]].
  split; [exact X2|]. split; [|split; [exact X3|]].
  - intros L I. specialize (X1 L). unfold h_inserted in X1. rewrite I, andb_true_r in X1. exact X1.
  - intros L. rewrite !final_cons. apply Z, Y, X4, L.
Qed.

Lemma ht_hold KW DW AW hash u lh s P i j : on_way AW hash lh s P -> let o := snd (ht_step KW DW AW lh hash u s i) in
  ho_rv o = true -> hi_rr i = false -> let o' := snd (ht_step KW DW AW lh hash u (fst (ht_step KW DW AW lh hash u s i)) j) in ho_rv o' = true /\ ho_res o' = ho_res o.
Proof.
  intros [[Hi1 Hi2] [k0 [k1 [h0 [h1 [E1 [E2 _]]]]]]]. cbv zeta.
  destruct s as [[m dout pend vld data ovld odata] ks hs], i as [lv key rr iv ih ik id ii], j as [lv' key' rr' iv' ih' ik' id' ii'].
  cbn [ht_ram ht_ks ht_hs rs_mem rs_dout rs_pend rs_vld rs_data rs_ovld rs_odata hi_rr] in *. subst ks hs. intros Hv ->.
  assert (vld = true) as ->. { unfold ht_step in Hv. cbn -[ht_key ht_data ht_vld ht_rec N.to_nat] in Hv. destruct vld; [reflexivity|]. destruct lh, pend, ovld; cbn in Hv; discriminate Hv. }
  destruct pend; [rewrite (Hi1 eq_refl) in *|destruct ovld]; destruct lh, lv, iv, rr', lv', iv'; unfold ht_step; cbn -[ht_key ht_data ht_vld ht_rec N.to_nat upd]; split; reflexivity.
Qed.
Lemma ht_stable KW DW AW lh hash u it a b c e is i j :
  let s := final (ht_step KW DW AW lh hash u) (ht_init DW it a b c e) is in
  let o := snd (ht_step KW DW AW lh hash u s i) in let o' := snd (ht_step KW DW AW lh hash u (fst (ht_step KW DW AW lh hash u s i)) j) in
  ho_rv o = true -> hi_rr i = false -> ho_rv o' = true /\ ho_res o' = ho_res o.
Proof.
  intros s o o' H1 H2. destruct (way_run KW DW AW lh hash u it a b c e is) as [P HP]. exact (ht_hold KW DW AW hash u lh s P i j HP H1 H2).
Qed.
