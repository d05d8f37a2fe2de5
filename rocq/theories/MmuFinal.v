From Verif Require Import Base BaseFacts FifoModel FifoProofs HsFifoProofs RamModel RamSpec RamProofs MmuModel MmuSpec MmuProofs MmuRun MmuLive.
From Coq Require Import NArith.
Open Scope N_scope.

Lemma c86 : forall (AW kb ks D : nat) (mem : N -> N) (m : nat -> N) (d : N) (is : list ag_in),
  (1 <= kb)%nat -> (2 <= D)%nat -> (forall a, mem a < 256) ->
  let t := trace (ag_step AW (2 ^ kb) (2 ^ ks) D) (ag_init D m d) is in
  served mem (2 ^ ks * 2 ^ kb) [] (map g_bus t) ->
  (forall p, In p (flat_map g_asked t) -> fst p + snd p * N.of_nat (2 ^ kb) < 2 ^ N.of_nat AW) ->
  exists rest, map (fun p => item mem (fst p) (2 ^ kb) (snd p)) (flat_map g_asked t) = flat_map g_got t ++ rest /\ (ks = 0%nat \/ (length rest <= D)%nat).
Proof.
  intros AW kb ks D mem m d is Hkb HD Hm t Hs Hf.
  destruct (ag_run AW (2 ^ kb) (2 ^ ks) D kb ks mem Hm eq_refl Hkb eq_refl HD is (ag_init D m d) []) as (rest & E & L & _ & _).
  - right. cbn [map]. apply hrep_init; [exact HD|]. left. cbn [length map app]. lia.
  - exact Hs.
  - constructor.
  - apply Forall_forall. exact Hf.
  - exists (map (itm (2 ^ kb) mem) rest). split; [exact E|]. rewrite map_length. destruct L as [L|L]; [left|right; exact L].
    destruct ks; [reflexivity|]. cbn [Nat.pow] in L. pose proof (pow2_pos ks). lia.
Qed.

Lemma c86_hold : forall (AW IB K D : nat) (m : nat -> N) (d : N) (is : list ag_in) (i j : ag_in) (v : N),
  (2 <= D)%nat ->
  let step := ag_step AW IB K D in let s := final step (ag_init D m d) is in
  go_item (snd (step s i)) = Some v -> gi_rd i = false -> gi_rv j = true -> gi_r j = gi_r i -> go_item (snd (step (fst (step s i)) j)) = Some v.
Proof.
  intros AW IB K D m d is i j v HD step s.
  assert (exists subs, ag_rep K D s subs) as [subs R].
  { unfold s. assert (forall is s0, (exists subs, ag_rep K D s0 subs) -> exists subs, ag_rep K D (final step s0 is) subs) as H.
    { clear - HD. induction is as [|i is IH]; intros s0 H; [exact H|]. rewrite final_cons. apply IH. destruct H as [subs R]. eexists. exact (proj1 (ag_ok AW IB K D HD s0 subs i R)). }
    apply H. exists []. right. apply hrep_init; [exact HD|]. left. cbn [length map app]. lia. }
  intros H1 H2 H3 H4. destruct (ag_ok AW IB K D HD s subs i R) as (_ & _ & _ & _ & H). exact (H v j H1 H2 H3 H4).
Qed.

Lemma c87 : forall (kb PO W2 ks MO D : nat) (mem : N -> N) (tbl : N -> N) (u a b c : N) (mg : nat -> N) (g : N) (mi mo : nat -> N) (is : list mm_in),
  (1 <= kb)%nat -> (2 <= D)%nat -> (4 <= MO)%nat -> (forall x, mem x < 256) ->
  let AW := (8 * 2 ^ kb)%nat in
  let t := trace (mm_step AW PO W2 (2 ^ ks) MO D u) (mm_init MO D (fun x => tbl (N.of_nat x)) a b c mg g mi mo) is in
  let L := lookups PO W2 tbl t in
  Forall u_quiet t -> served mem (2 ^ ks * 2 ^ kb) [] (map u_bus t) ->
  (forall q, In q L -> N.odd (snd q) = false -> snd q + 2 ^ N.of_nat W2 * N.of_nat (2 ^ kb) <= 2 ^ N.of_nat AW) ->
  (exists n, flat_map u_sent t = map (physical mem AW PO W2) (firstn n L) /\ (n <= length L)%nat /\ forallb (mapped mem AW PO W2) (firstn n L) = true) /\
  (forall x, In x t -> mo_seg (snd x) = true -> mo_p (snd x) = None /\ exists q, In q L /\ mapped mem AW PO W2 q = false).
Proof.
  intros kb PO W2 ks MO D mem tbl u a b c mg g mi mo is Hkb HD HMO Hm AW t L Hq Hs Hf.
  assert (AW / 8 = 2 ^ kb)%nat as EIB by (unfold AW; rewrite Nat.mul_comm; apply Nat.div_mul; discriminate).
  assert (2 <= MO / 2)%nat as HM2 by (apply Nat.div_le_lower_bound; lia).
  destruct (mm_run AW PO W2 (2 ^ ks) MO D kb ks mem u Hm eq_refl Hkb eq_refl HD HMO is (mm_init MO D (fun x => tbl (N.of_nat x)) a b c mg g mi mo) [] [] tbl) as [H1 H2].
  - constructor; try reflexivity.
    + split; discriminate.
    + apply hrep_init; [exact HM2|]. left. cbn [length map app]. lia.
    + apply hrep_init; [lia|]. left. cbn [length map app]. lia.
    + right. apply hrep_init; [exact HD|]. left. cbn [length map app]. lia.
    + constructor.
    + intros x. cbn [mm_init mm_ram rh_init rs_mem]. rewrite N2Nat.id. reflexivity.
  - exact Hq.
  - rewrite EIB. exact Hs.
  - apply Forall_forall. intros q Hin Ho. rewrite EIB. exact (Hf q Hin Ho).
  - split; [exact H1|]. intros x Hx Hx2. split; [|exact (H2 x Hx Hx2)].
    clear - Hx Hx2. unfold t in Hx. revert Hx. generalize (mm_init MO D (fun x => tbl (N.of_nat x)) a b c mg g mi mo). clear t.
    induction is as [|i is IH]; intros s Hx; [contradiction|]. rewrite trace_cons in Hx. destruct Hx as [<-|Hx]; [|exact (IH _ Hx)].
    cbn [snd] in *. rewrite mm_seg in Hx2. exact (proj2 (mm_stuck AW PO W2 (2 ^ ks) MO D u s i Hx2)).
Qed.

Lemma c87_progress : forall (kb PO W2 ks MO D : nat) (mem : N -> N) (tbl : N -> N) (u a b c : N) (mg : nat -> N) (g : N) (mi mo : nat -> N) (is js : list mm_in),
  (1 <= kb)%nat -> (2 <= D)%nat -> (4 <= MO)%nat -> (forall x, mem x < 256) ->
  let AW := (8 * 2 ^ kb)%nat in
  let step := mm_step AW PO W2 (2 ^ ks) MO D u in let s0 := mm_init MO D (fun x => tbl (N.of_nat x)) a b c mg g mi mo in
  let t := trace step s0 (is ++ js) in
  let L := lookups PO W2 tbl t in
  Forall u_quiet t -> served mem (2 ^ ks * 2 ^ kb) [] (map u_bus t) ->
  (forall q, In q L -> N.odd (snd q) = false -> snd q + 2 ^ N.of_nat W2 * N.of_nat (2 ^ kb) <= 2 ^ N.of_nat AW) ->
  (forall q, In q L -> mapped mem AW PO W2 q = true) ->
  Forall (fun i => mi_vv i = false /\ mi_prd i = true /\ mi_qrd i = true) js ->
  prompt (pending [] (map u_bus (trace step s0 is))) (map u_bus (trace step (final step s0 is) js)) ->
  (3 * length L + 2 <= length js)%nat ->
  flat_map u_sent t = map (physical mem AW PO W2) L.
Proof.
  intros kb PO W2 ks MO D mem tbl u a b c mg g mi mo is js Hkb HD HMO Hm AW step s0 t L Hq Hs Hf Hmp Hw Hp Hl.
  assert (AW / 8 = 2 ^ kb)%nat as EIB by (unfold AW; rewrite Nat.mul_comm; apply Nat.div_mul; discriminate).
  assert (2 <= MO / 2)%nat as HM2 by (apply Nat.div_le_lower_bound; lia).
  apply (mm_prog AW PO W2 (2 ^ ks) MO D kb ks mem u Hm eq_refl Hkb eq_refl HD HMO js is s0 [] [] tbl).
  - constructor; try reflexivity.
    + split; discriminate.
    + apply hrep_init; [exact HM2|]. left. cbn [length map app]. lia.
    + apply hrep_init; [lia|]. left. cbn [length map app]. lia.
    + right. apply hrep_init; [exact HD|]. left. cbn [length map app]. lia.
    + constructor.
    + intros x. cbn [s0 mm_init mm_ram rh_init rs_mem]. rewrite N2Nat.id. reflexivity.
  - exact Hw.
  - exact Hq.
  - rewrite EIB. exact Hs.
  - exact Hp.
  - apply Forall_forall. intros q Hin Ho. rewrite EIB. exact (Hf q Hin Ho).
  - apply forallb_forall. exact Hmp.
  - exact Hl.
Qed.

Lemma c87_seg : forall (AW PO W2 K MO D : nat) (tbl : nat -> N) (u a b c : N) (mg : nat -> N) (g : N) (mi mo : nat -> N) (is : list mm_in) (i j : mm_in),
  let step := mm_step AW PO W2 K MO D u in let s := final step (mm_init MO D tbl a b c mg g mi mo) is in
  mo_seg (snd (step s i)) = true -> mo_seg (snd (step (fst (step s i)) j)) = true.
Proof.
  intros AW PO W2 K MO D tbl u a b c mg g mi mo is i j step s H. unfold step in *. rewrite mm_seg in *. exact (proj1 (mm_stuck AW PO W2 K MO D u s i H)).
Qed.

Lemma c86_progress : forall (AW kb ks D : nat) (mem : N -> N) (m : nat -> N) (d : N) (is : list ag_in) (i j : ag_in),
  (1 <= kb)%nat -> (2 <= D)%nat -> (forall a, mem a < 256) ->
  let t := trace (ag_step AW (2 ^ kb) (2 ^ ks) D) (ag_init D m d) (is ++ [i; j]) in
  served mem (2 ^ ks * 2 ^ kb) [] (map g_bus t) ->
  (forall p, In p (flat_map g_asked t) -> fst p + snd p * N.of_nat (2 ^ kb) < 2 ^ N.of_nat AW) ->
  gi_rv i = true -> gi_rd i = true -> gi_rv j = true -> gi_rd j = true ->
  (length (flat_map g_got (trace (ag_step AW (2 ^ kb) (2 ^ ks) D) (ag_init D m d) is)) < length (flat_map g_got t))%nat.
Proof.
  intros AW kb ks D mem m d is i j Hkb HD Hm t Hs Hf Hi1 Hi2 Hj1 Hj2.
  set (K := (2 ^ ks)%nat) in *. set (IB := (2 ^ kb)%nat) in *. set (step := ag_step AW IB K D) in *.
  assert (forall a b pend, served mem (K * IB) pend (a ++ b) -> served mem (K * IB) pend a) as Hcut.
  { induction a as [|[[q r] tk] a IH]; intros b pend H; [exact I|]. cbn [app served] in *. destruct H as [H1 H2]. split; [exact H1|exact (IH _ _ H2)]. }
  assert (R0 : ag_rep K D (ag_init D m d) (map (sb K) [])).
  { right. cbn [map]. apply hrep_init; [exact HD|]. left. cbn [length]. lia. }
  unfold t in *. rewrite trace_app in *. rewrite map_app in Hs.
  destruct (ag_run AW IB K D kb ks mem Hm eq_refl Hkb eq_refl HD is (ag_init D m d) [] R0) as (rest & E & L & R & EP).
  { exact (Hcut _ _ _ Hs). } { constructor. }
  { apply Forall_forall. intros p Hp. apply Hf. rewrite flat_map_app. apply in_or_app. left. exact Hp. }
  fold step in R, EP. set (s := final step (ag_init D m d) is) in *. rewrite flat_map_app, app_length.
  assert (forall a b pend, served mem (K * IB) pend (a ++ b) -> served mem (K * IB) (pending pend a) b) as Hdrop.
  { induction a as [|[[q r] tk] a IH]; intros b pend H; [exact H|]. cbn [app served pending] in *. exact (IH _ _ (proj2 H)). }
  apply Hdrop in Hs. change (map (adr AW IB K) []) with (@nil N) in EP. rewrite EP in Hs. rewrite !trace_cons in Hs. cbn [map served] in Hs. unfold g_bus at 1 in Hs. cbn [fst snd] in Hs. destruct Hs as [Hs _]. rewrite Hi1 in Hs.
  destruct Hs as (a0 & p0 & Es & _). destruct rest as [|p rest]; [discriminate|].
  rewrite !trace_cons. cbn [flat_map]. rewrite !app_length.
  destruct (ag_ok AW IB K D HD s _ i R) as (R1 & _ & _ & Gt & _). fold step in R1, Gt.
  assert (Hone : forall s i subs, ag_rep K D s subs -> subs <> [] -> gi_rv i = true -> gi_rd i = true ->
    g_got (i, snd (step s i)) <> [] \/ ag_show K (fst (step s i)) = true /\ exists subs', ag_rep K D (fst (step s i)) subs').
  { clear - HD. intros s i subs R Hn H1 H2. destruct (ag_ok AW IB K D HD s _ i R) as (R1 & _ & _ & Gt & _). fold step in R1, Gt.
    unfold g_got. cbn [fst snd]. rewrite H2 in *. destruct (go_item (snd (step s i))) as [v|]; [left; discriminate|]. right. split; [|eauto].
    unfold ag_show. destruct (Nat.eqb_spec K 1) as [E|E]; [reflexivity|]. cbn [orb]. destruct R as [R|R]; [contradiction|].
    rewrite Gt in R1. unfold g_tk in Gt. rewrite H1 in Gt. cbn [andb] in Gt. unfold step, ag_step in Gt |- *. rewrite (proj2 (Nat.eqb_neq K 1) E) in *.
    set (fi := mk_hin (gi_iv i && gi_qrd i) (gi_idx i mod p2 (ag_sub K)) (gi_rv i && gi_rd i)) in *.
    pose proof (hs_present D HD _ _ fi R) as Hp. pose proof (step_out D (ag_f s) fi) as Eo. destruct (hsf_step D (ag_f s) fi) as [f' fo]. cbn [fst snd] in *. subst fo.
    cbn [go_rrd h_vld ag_f] in *. apply Hp. rewrite H2, andb_true_r in Gt. rewrite Gt. exact Hn. }
  destruct (Hone s i _ R ltac:(discriminate) Hi1 Hi2) as [H|[H [subs' R2]]].
  - fold step. destruct (g_got (i, snd (step s i))); [congruence|cbn [length]; lia].
  - assert (g_got (j, snd (step (fst (step s i)) j)) <> []) as H2.
    { unfold g_got. cbn [fst snd]. rewrite Hj2. clear - H Hj1. unfold step at 1, ag_step. unfold ag_show in H. destruct (K =? 1)%nat; [cbn; rewrite Hj1; discriminate|].
      cbn [orb] in H. match goal with |- context [hsf_step D ?f ?x] => pose proof (step_out D f x) as Eo; destruct (hsf_step D f x) as [f' fo] end. cbn [snd] in Eo. subst fo.
      cbn [snd go_item h_vld]. fold step. rewrite Hj1, H. discriminate. }
    fold step. destruct (g_got (j, snd (step (fst (step s i)) j))); [congruence|cbn [length]; lia].
Qed.
