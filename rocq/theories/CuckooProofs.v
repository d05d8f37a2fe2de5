From Verif Require Import Base BaseFacts CuckooModel CuckooSpec.
From Coq Require Import NArith.

(** * lists *)
Lemma nth_map_seq {A} (f : nat -> A) n k d : k < n -> nth k (map f (seq 0 n)) d = f k.
Proof. intros H. rewrite nth_indep with (d' := f 0) by (rewrite map_length, seq_length; exact H). rewrite map_nth, seq_nth by exact H. reflexivity. Qed.
Lemma first_true_some l j : first_true l = Some j -> j < length l /\ nth j l false = true.
Proof.
  revert j. induction l as [|b l IH]; intros j H; [discriminate|]. cbn [first_true] in H. destruct b; [injection H as <-; cbn; split; [lia|reflexivity]|].
  destruct (first_true l) as [n|]; [|discriminate]. injection H as <-. destruct (IH n eq_refl) as [H1 H2]. cbn. split; [lia|exact H2].
Qed.
Lemma first_true_none l j : first_true l = None -> nth j l false = false.
Proof.
  revert j. induction l as [|b l IH]; intros j H; [destruct j; reflexivity|]. cbn [first_true] in H. destruct b; [discriminate|].
  destruct (first_true l) as [n|]; [discriminate|]. destruct j; [reflexivity|apply IH; reflexivity].
Qed.
Lemma first_true_ex l j : nth j l false = true -> exists k, first_true l = Some k.
Proof. intros H. destruct (first_true l) as [k|] eqn:E; [eexists; reflexivity|]. rewrite (first_true_none l j E) in H. discriminate. Qed.

Section Cuckoo.
  Context {D : Type}.
  Variables (TC SZ MR ML : nat) (hash : nat -> N -> nat).
  Hypothesis HTC : 0 < TC.
  Hypothesis HSZ : 0 < SZ.
  Hypothesis HMR : 0 < MR.
  Hypothesis HML : ML - 1 < 2 ^ log2ceil (ML - 1).
  Hypothesis Hhash : forall j k, j < TC -> hash j k < SZ.
  Notation citem := (citem D).
  Notation kmap := (kmap D).
  Notation mems := (nat -> nat -> citem).
  Implicit Types (mem : mems) (C M : kmap).

  (** the tables contain the map *)
  Record R mem C : Prop := {
    r_in : forall j a, j < TC -> a < SZ -> ci_vld (mem j a) = true -> hash j (ci_key (mem j a)) = a /\ C (ci_key (mem j a)) = Some (ci_data (mem j a));
    r_of : forall k d, C k = Some d -> exists j, j < TC /\ mem j (hash j k) = mk_ci k d true;
    r_un : forall j a j' a', j < TC -> a < SZ -> j' < TC -> a' < SZ -> ci_vld (mem j a) = true -> ci_vld (mem j' a') = true ->
             ci_key (mem j a) = ci_key (mem j' a') -> j = j' }.

  Lemma R_ext mem C C' : R mem C -> (forall x, C' x = C x) -> R mem C'.
  Proof. intros [H1 H2 H3] E. constructor; [intros; rewrite E; apply H1; assumption|intros k d; rewrite E; apply H2|exact H3]. Qed.

  (** one item of a table is replaced *)
  Definition wr mem j a x (mem' : mems) : Prop := forall j' a', j' < TC -> mem' j' a' = if (j' =? j) && (a' =? a) then x else mem j' a'.
  Lemma R_write mem C j k d mem' C' : R mem C -> j < TC -> wr mem j (hash j k) (mk_ci k d true) mem' ->
    (let y := mem j (hash j k) in (ci_vld y = true /\ ci_key y = k) \/ C k = None) ->
    (forall x, C' x = if (x =? k)%N then Some d else if ci_vld (mem j (hash j k)) && (x =? ci_key (mem j (hash j k)))%N then None else C x) ->
    R mem' C'.
  Proof.
    intros [H1 H2 H3] Hj Hw Hs EC. cbn zeta in Hs. pose proof (Hhash j k Hj) as Hh. set (y := mem j (hash j k)) in *.
    assert (forall j' a', j' < TC -> a' < SZ -> (j' =? j) && (a' =? hash j k) = false -> ci_vld (mem j' a') = true ->
      ci_key (mem j' a') <> k /\ (ci_vld y = true -> ci_key (mem j' a') <> ci_key y)) as Hother.
    { intros j' a' Hj' Ha' Hne V.
      assert (forall z, ci_vld y = true -> ci_key y = z -> ci_key (mem j' a') <> z) as Hyz.
      { intros z Vy Ez E. assert (j' = j) as -> by (apply (H3 j' a' j (hash j k)); auto; fold y; congruence).
        rewrite Nat.eqb_refl in Hne. cbn [andb] in Hne. apply Nat.eqb_neq in Hne. apply Hne.
        destruct (H1 j a' Hj Ha' V) as [<- _]. destruct (H1 j (hash j k) Hj Hh Vy) as [Q _]. fold y in Q. rewrite E, <- Ez. exact Q. }
      split; [|intros Vy; apply Hyz; auto]. destruct Hs as [[Vy Ky]|Ck]; [apply Hyz; assumption|]. intros E.
      destruct (H1 j' a' Hj' Ha' V) as [_ Q]. rewrite E in Q. congruence. }
    constructor.
    - intros j' a' Hj' Ha'. rewrite (Hw j' a' Hj'). destruct ((j' =? j) && (a' =? hash j k)) eqn:E.
      + apply andb_true_iff in E. destruct E as [E1 E2]. apply Nat.eqb_eq in E1, E2. subst j' a'. intros _. cbn [ci_key ci_data]. rewrite EC, N.eqb_refl. auto.
      + intros V. destruct (Hother j' a' Hj' Ha' E V) as [N1 N2]. destruct (H1 j' a' Hj' Ha' V) as [Q1 Q2]. split; [exact Q1|]. rewrite EC.
        apply N.eqb_neq in N1. rewrite N1. destruct (ci_vld y); [|exact Q2]. specialize (N2 eq_refl). apply N.eqb_neq in N2. rewrite N2. exact Q2.
    - intros x e. rewrite EC. destruct (N.eqb_spec x k) as [-> |Nk].
      + intros [= <-]. exists j. split; [exact Hj|]. rewrite (Hw j _ Hj), !Nat.eqb_refl. reflexivity.
      + destruct (ci_vld y && (x =? ci_key y)%N) eqn:Ev; [discriminate|]. intros Hx. destruct (H2 x e Hx) as [j' [Hj' Ej]]. exists j'. split; [exact Hj'|].
        rewrite (Hw j' _ Hj'). destruct ((j' =? j) && (hash j' x =? hash j k)) eqn:E; [|exact Ej]. exfalso.
        apply andb_true_iff in E. destruct E as [E1 E2]. apply Nat.eqb_eq in E1, E2. subst j'. rewrite E2 in Ej. fold y in Ej. rewrite Ej in Ev.
        cbn [ci_vld ci_key andb] in Ev. rewrite N.eqb_refl in Ev. discriminate.
    - intros j1 a1 j2 a2 Hj1 Ha1 Hj2 Ha2. rewrite (Hw j1 a1 Hj1), (Hw j2 a2 Hj2).
      destruct ((j1 =? j) && (a1 =? hash j k)) eqn:E1, ((j2 =? j) && (a2 =? hash j k)) eqn:E2; cbn [ci_vld ci_key]; intros V1 V2 E.
      + apply andb_true_iff in E1, E2. destruct E1 as [E1 _], E2 as [E2 _]. apply Nat.eqb_eq in E1, E2. congruence.
      + destruct (Hother j2 a2 Hj2 Ha2 E2 V2) as [Q _]. congruence.
      + destruct (Hother j1 a1 Hj1 Ha1 E1 V1) as [Q _]. congruence.
      + apply (H3 j1 a1 j2 a2); assumption.
  Qed.
  Lemma R_delete mem C j k d mem' C' : R mem C -> j < TC -> wr mem j (hash j k) (mk_ci k d false) mem' ->
    ci_vld (mem j (hash j k)) = true -> ci_key (mem j (hash j k)) = k -> (forall x, C' x = rem C k x) -> R mem' C'.
  Proof.
    intros [H1 H2 H3] Hj Hw Vy Ky EC. pose proof (Hhash j k Hj) as Hh. set (y := mem j (hash j k)) in *.
    assert (forall j' a', j' < TC -> a' < SZ -> (j' =? j) && (a' =? hash j k) = false -> ci_vld (mem j' a') = true -> ci_key (mem j' a') <> k) as Hother.
    { intros j' a' Hj' Ha' Hne V E. assert (j' = j) as -> by (apply (H3 j' a' j (hash j k)); auto; fold y; congruence).
      rewrite Nat.eqb_refl in Hne. cbn [andb] in Hne. apply Nat.eqb_neq in Hne. apply Hne. destruct (H1 j a' Hj Ha' V) as [<- _]. rewrite E. reflexivity. }
    constructor.
    - intros j' a' Hj' Ha'. rewrite (Hw j' a' Hj'). destruct ((j' =? j) && (a' =? hash j k)) eqn:E; [discriminate|]. intros V.
      destruct (H1 j' a' Hj' Ha' V) as [Q1 Q2]. split; [exact Q1|]. rewrite EC. unfold rem. pose proof (Hother j' a' Hj' Ha' E V) as N1. apply N.eqb_neq in N1. rewrite N1. exact Q2.
    - intros x e. rewrite EC. unfold rem. destruct (N.eqb_spec x k) as [-> |Nk]; [discriminate|]. intros Hx. destruct (H2 x e Hx) as [j' [Hj' Ej]].
      exists j'. split; [exact Hj'|]. rewrite (Hw j' _ Hj'). destruct ((j' =? j) && (hash j' x =? hash j k)) eqn:E; [|exact Ej]. exfalso.
      apply andb_true_iff in E. destruct E as [E1 E2]. apply Nat.eqb_eq in E1, E2. subst j'. rewrite E2 in Ej. fold y in Ej. rewrite Ej in Ky. cbn in Ky. contradiction.
    - intros j1 a1 j2 a2 Hj1 Ha1 Hj2 Ha2. rewrite (Hw j1 a1 Hj1), (Hw j2 a2 Hj2).
      destruct ((j1 =? j) && (a1 =? hash j k)) eqn:E1; [discriminate|]. destruct ((j2 =? j) && (a2 =? hash j k)) eqn:E2; [discriminate|]. apply H3; assumption.
  Qed.

  (** * target *)
  Definition hot (tgt : list bool) (j : nat) : Prop := j < TC /\ length tgt = TC /\ forall j', j' < TC -> nth j' tgt false = (j' =? j).
  Lemma hot_first tgt j : hot tgt j -> first_true tgt = Some j.
  Proof.
    intros [Hj [Hl H]]. destruct (first_true_ex tgt j) as [k E]; [rewrite H, Nat.eqb_refl by exact Hj; reflexivity|].
    destruct (first_true_some tgt k E) as [H1 H2]. rewrite H in H2 by lia. apply Nat.eqb_eq in H2. congruence.
  Qed.
  Lemma one_hot_hot j : j < TC -> hot (one_hot TC j) j.
  Proof. intros H. unfold one_hot, tbl. split; [exact H|]. split; [rewrite map_length; apply seq_length|]. intros j' H'. rewrite (nth_map_seq (fun i => i =? j)) by exact H'. reflexivity. Qed.
  Lemma ror_hot tgt j : hot tgt j -> hot (ror1 tgt) (if j =? 0 then TC - 1 else j - 1).
  Proof.
    intros [Hj [Hl H]]. destruct tgt as [|b r]; [cbn in Hl; lia|]. cbn [length] in Hl. cbn [ror1]. split; [destruct (j =? 0); lia|].
    split; [rewrite app_length; cbn; lia|]. intros j' H'. destruct (Nat.eq_dec j' (length r)) as [-> |Hn].
    - rewrite nth_middle. specialize (H 0 HTC). cbn [nth] in H. rewrite H. destruct j as [|j]; cbn [Nat.eqb].
      + symmetry. apply Nat.eqb_eq. lia.
      + symmetry. apply Nat.eqb_neq. lia.
    - rewrite app_nth1 by lia. specialize (H (S j') ltac:(lia)). cbn [nth] in H. rewrite H. destruct j as [|j]; cbn [Nat.eqb].
      + symmetry. apply Nat.eqb_neq. lia.
      + replace (S j - 1) with j by lia. reflexivity.
  Qed.
  Lemma existsb_tbl (f : nat -> bool) : existsb f (tbl TC) = true <-> exists j, j < TC /\ f j = true.
  Proof. unfold tbl. rewrite existsb_exists. split; intros [j [H1 H2]]; exists j; (split; [|exact H2]); apply in_seq in H1 || apply in_seq; lia. Qed.
  Lemma existsb_tbl_no (f : nat -> bool) : existsb f (tbl TC) = false -> forall j, j < TC -> f j = false.
  Proof. intros H j Hj. destruct (f j) eqn:E; [|reflexivity]. enough (existsb f (tbl TC) = true) by congruence. apply existsb_tbl. exists j. auto. Qed.

  Definition free mem : Prop := forall j a, j < TC -> a < SZ -> ci_vld (mem j a) = false.
  Definition hotor mem tgt : Prop := (exists j, hot tgt j) \/ free mem.
  Definition snap mem (k : N) (x : nat -> citem) : Prop := forall j, j < TC -> x j = mem j (hash j k).

  Lemma found_in mem C k x : R mem C -> snap mem k x -> C k <> None -> exists j, j < TC /\ r_found k (x j) = true.
  Proof.
    intros HR Hs Hk. destruct (C k) as [d|] eqn:E; [|congruence]. destruct (r_of _ _ HR k d E) as [j [Hj Ej]]. exists j. split; [exact Hj|].
    rewrite (Hs j Hj), Ej. unfold r_found. cbn [ci_key ci_vld]. rewrite N.eqb_refl. reflexivity.
  Qed.
  Lemma found_eq k (y : citem) : r_found k y = true -> ci_vld y = true /\ ci_key y = k.
  Proof. unfold r_found. intros H. apply andb_true_iff in H. destruct H as [H1 H2]. apply N.eqb_eq in H1. auto. Qed.
  Lemma tgt_ok mem C k x tgt : R mem C -> snap mem k x -> hotor mem tgt ->
    exists j, hot (new_tgt TC k x tgt) j /\ (C k <> None -> ci_vld (x j) = true /\ ci_key (x j) = k) /\
      if new_fin TC k x then (ci_vld (x j) = true /\ ci_key (x j) = k) \/ (ci_vld (x j) = false /\ C k = None)
      else ci_vld (x j) = true /\ ci_key (x j) <> k /\ C k = None.
  Proof.
    intros HR Hs Ht. unfold new_tgt, new_fin. destruct (existsb (fun j => r_found k (x j)) (tbl TC)) eqn:Ef.
    - apply existsb_tbl in Ef. destruct Ef as [j [Hj Fj]]. exists j. cbn [orb]. destruct (found_eq _ _ Fj) as [V K]. split; [|auto].
      split; [exact Hj|]. split; [unfold tbl; rewrite map_length; apply seq_length|]. intros j' Hj'. unfold tbl. rewrite (nth_map_seq (fun j => r_found k (x j))) by exact Hj'.
      destruct (Nat.eqb_spec j' j) as [-> |Hn]; [exact Fj|]. destruct (r_found k (x j')) eqn:F'; [|reflexivity]. exfalso. apply Hn.
      destruct (found_eq _ _ F') as [V' K']. rewrite (Hs _ Hj) in *. rewrite (Hs _ Hj') in *.
      apply (r_un _ _ HR j' (hash j' k) j (hash j k)); auto; congruence.
    - assert (C k = None) as Hk.
      { destruct (C k) eqn:E; [|reflexivity]. destruct (found_in mem C k x HR Hs) as [j [Hj Fj]]; [congruence|]. rewrite (existsb_tbl_no _ Ef j Hj) in Fj. discriminate. }
      cbn [orb]. destruct (first_true (map (fun j => negb (ci_vld (x j))) (tbl TC))) as [j|] eqn:Ee.
      + destruct (first_true_some _ _ Ee) as [Hl Hj]. unfold tbl in Hl, Hj. rewrite map_length, seq_length in Hl.
        rewrite (nth_map_seq (fun j => negb (ci_vld (x j)))) in Hj by exact Hl. exists j. split; [apply one_hot_hot, Hl|]. split; [congruence|].
        assert (existsb (fun j => negb (ci_vld (x j))) (tbl TC) = true) as -> by (apply existsb_tbl; exists j; auto). right. apply negb_true_iff in Hj. auto.
      + assert (forall j, j < TC -> ci_vld (x j) = true) as Hfull.
        { intros j Hj. pose proof (first_true_none _ j Ee) as Q. unfold tbl in Q. rewrite (nth_map_seq (fun j => negb (ci_vld (x j)))) in Q by exact Hj. apply negb_false_iff, Q. }
        assert (existsb (fun j => negb (ci_vld (x j))) (tbl TC) = false) as ->.
        { destruct (existsb (fun j => negb (ci_vld (x j))) (tbl TC)) eqn:Q; [|reflexivity]. apply existsb_tbl in Q. destruct Q as [j [Hj Q]]. rewrite (Hfull j Hj) in Q. discriminate. }
        destruct Ht as [[j Hh]|Hfr].
        * assert (existsb (fun b => b) tgt = true) as ->.
          { apply existsb_exists. exists true. split; [|reflexivity]. destruct Hh as [Hj [Hl Hn]]. specialize (Hn j Hj). rewrite Nat.eqb_refl in Hn. rewrite <- Hn. apply nth_In. lia. }
          exists (if j =? 0 then TC - 1 else j - 1). pose proof (ror_hot _ _ Hh) as Hr. set (j' := if j =? 0 then TC - 1 else j - 1) in *.
          assert (j' < TC) as Hj' by apply Hr. split; [exact Hr|]. split; [congruence|]. split; [apply Hfull, Hj'|]. split; [|exact Hk].
          intros K. pose proof (existsb_tbl_no _ Ef j' Hj') as Q. cbn beta in Q. unfold r_found in Q. rewrite K, N.eqb_refl, (Hfull j' Hj') in Q. discriminate.
        * exfalso. specialize (Hfull 0 HTC). rewrite (Hs 0 HTC), (Hfr 0 _ HTC (Hhash _ _ HTC)) in Hfull. discriminate.
  Qed.

  (** * states *)
  Notation step := (@cu_step D TC SZ MR ML hash).
  Notation cyc := (cu_in D * cu_out D)%type.
  Definition op_ok (p : sp D) (st : stash D) C : Prop :=
    match sh_orig st with
    | OInsert => sh_vld st = true /\ sh_cntr st <= MR /\
        exists k d, sp_ins p = Some (k, d) /\ forall x, put C (sh_key st) (sh_data st) x = put (sp_map p) k d x
    | ODelete => sh_vld st = false /\ sp_ins p = None /\ (forall x, sp_map p x = rem C (sh_key st) x) /\ C (sh_key st) <> None
    | OLookup => False
    end.
  Definition lk (st : stash D) : list N := if is_orig (sh_orig st) OLookup then [sh_key st] else [].
  Definition idle_ok (s : cu_st D) (p : sp D) : Prop :=
    cu_addr s = 0 /\ sp_ins p = None /\ R (cu_mem s) (sp_map p) /\ hotor (cu_mem s) (cu_tgt s) /\
    cu_prog s = length (cu_q s) + length (lk (cu_stash s)) /\ cu_prog s <= ML - 1 /\
    (forall k x, In (k, x) (cu_q s) -> snap (cu_mem s) k x) /\
    sp_q p = map (fun k => (k, sp_map p k)) (map fst (cu_q s) ++ lk (cu_stash s)).
  Definition clean_ok (s : cu_st D) (p : sp D) : Prop :=
    cu_prog s = 0 /\ cu_q s = [] /\ sh_orig (cu_stash s) = ODelete /\ sh_vld (cu_stash s) = false /\ sp_ins p = None /\ sp_q p = [] /\
    (forall x, sp_map p x = None) /\ cu_addr s < SZ /\ forall j a, j < TC -> a < cu_addr s -> ci_vld (cu_mem s j a) = false.
  Definition busy (s : cu_st D) (p : sp D) C : Prop := cu_addr s = 0 /\ cu_prog s = 0 /\ sp_q p = [] /\ R (cu_mem s) C /\ op_ok p (cu_stash s) C.
  Definition pos (s : cu_st D) : Prop := sh_orig (cu_stash s) = OInsert -> 0 < sh_cntr (cu_stash s).
  Definition Inv (s : cu_st D) (p : sp D) : Prop :=
    match cu_fsm s with
    | CIdle => idle_ok s p
    | CCleaning => clean_ok s p
    | CLookup => exists C, busy s p C /\ (sh_orig (cu_stash s) = OInsert -> sh_cntr (cu_stash s) < MR -> C (sh_key (cu_stash s)) = None) /\ cu_q s = [] /\ hotor (cu_mem s) (cu_tgt s)
    | CWaitRd => exists C x, busy s p C /\ pos s /\ cu_q s = [(sh_key (cu_stash s), x)] /\ snap (cu_mem s) (sh_key (cu_stash s)) x /\ hotor (cu_mem s) (cu_tgt s)
    | CAck => exists C x j, busy s p C /\ pos s /\ cu_q s = [(sh_key (cu_stash s), x)] /\ hot (cu_tgt s) j /\ (forall j, j < TC -> cu_shown s j = true) /\
        let k := sh_key (cu_stash s) in let y := cu_mem s j (hash j k) in
        (sh_orig (cu_stash s) = ODelete -> ci_vld y = true /\ ci_key y = k) /\
        (if cu_fin s then (ci_vld y = true /\ ci_key y = k) \/ (ci_vld y = false /\ C k = None) else x j = y /\ ci_vld y = true /\ ci_key y <> k /\ C k = None)
    end.

  (** a cycle in which nothing is accepted *)
  Definition quiet (x : cyc) : Prop := uo_crd (snd x) = false /\ uo_drd (snd x) = false /\ uo_ird (snd x) = false /\ uo_lrd (snd x) = false /\ uo_lres (snd x) = None.
  Lemma quiet_next p x : quiet x -> g_ins x = None -> sp_next p x = p.
  Proof.
    intros [H1 [H2 [H3 [H4 H5]]]] H6. unfold sp_next, a_clean, a_del, a_ins, a_look, g_look. rewrite H1, H2, H3, H4, H5, H6, andb_false_r.
    destruct (ui_lrr (fst x)), p; reflexivity.
  Qed.
  Lemma quiet_ins p x pop rk rd k d : quiet x -> g_ins x = Some (pop, rk, rd) -> sp_ins p = Some (k, d) ->
    sp_next p x = mk_sp (if pop then rem (put (sp_map p) k d) rk else put (sp_map p) k d) None (sp_q p).
  Proof.
    intros [H1 [H2 [H3 [H4 H5]]]] H6 H7. unfold sp_next, a_clean, a_del, a_ins, a_look, g_look. rewrite H1, H2, H3, H4, H5, H6, H7, andb_false_r.
    destruct (ui_lrr (fst x)); reflexivity.
  Qed.
  Lemma quiet_cycle p x : quiet x -> (forall pop k d, g_ins x = Some (pop, k, d) -> exists k0 d0, sp_ins p = Some (k0, d0) /\ put (sp_map p) k0 d0 k = Some d) -> sp_cycle p x.
  Proof.
    intros [H1 [H2 [H3 [H4 H5]]]] H6. unfold sp_cycle, a_clean, a_del, a_ins, a_look, g_look. rewrite H1, H2, H3, H4, H5, andb_false_r. split; [|split; [exact H6|]].
    - intros f k d. destruct (ui_lrr (fst x)); discriminate.
    - intros [H|[H|[H|H]]]; congruence.
  Qed.

  Ltac st_cbn := cbn [cu_mem cu_q cu_shown cu_fsm cu_stash cu_tgt cu_fin cu_addr cu_prog sh_key sh_data sh_cntr sh_vld sh_orig fst snd is_fsm is_orig is_some andb orb negb
     uo_crd uo_drd uo_ird uo_lrd uo_lres uo_ires sp_map sp_ins sp_q] in *.

  Lemma step_cleaning s p i : cu_fsm s = CCleaning -> Inv s p -> let x := (i, snd (step s i)) in sp_cycle p x /\ Inv (fst (step s i)) (sp_next p x).
  Proof.
    intros Ef HI. unfold Inv in HI. rewrite Ef in HI. destruct HI as [Hp [Hq [Ho [Hv [Hi [Hs [Hm [Ha Hc]]]]]]]].
    destruct s as [mem q shown fsm [k d c v o] tgt fin addr prog]. st_cbn. subst fsm q prog o v.
    assert (quiet (i, snd (step (mk_cu mem [] shown CCleaning (mk_stash k d c false ODelete) tgt fin addr 0) i))) as HQ by (unfold quiet; repeat split; reflexivity).
    assert (g_ins (i, snd (step (mk_cu mem [] shown CCleaning (mk_stash k d c false ODelete) tgt fin addr 0) i)) = None) as HG by (unfold g_ins; cbn; destruct (ui_irr i); reflexivity).
    cbv zeta. split; [apply quiet_cycle; [exact HQ|]; rewrite HG; discriminate|]. rewrite (quiet_next _ _ HQ HG). clear HQ HG.
    unfold cu_step. st_cbn. unfold Inv. st_cbn. destruct (Nat.eqb_spec addr (SZ - 1)) as [El|El].
    - unfold idle_ok. st_cbn. split; [reflexivity|]. split; [exact Hi|].
      assert (forall j a, j < TC -> a < SZ -> ci_vld (if a =? addr then mk_ci k d false else mem j a) = false) as Hfr.
      { intros j a Hj Hsz. destruct (Nat.eqb_spec a addr); [reflexivity|]. apply Hc; lia. }
      split; [|split; [right; exact Hfr|]].
      + constructor; intros; try (rewrite Hfr in *; try assumption; discriminate). rewrite Hm in H. discriminate H.
      + split; [reflexivity|]. split; [lia|]. split; [intros k' x []|]. rewrite Hs. reflexivity.
    - unfold clean_ok. st_cbn. repeat split; try assumption; try lia. intros j a Hj Hlt. destruct (Nat.eqb_spec a addr); [reflexivity|]. apply Hc; lia.
  Qed.

  Lemma step_lookup s p i : cu_fsm s = CLookup -> Inv s p -> let x := (i, snd (step s i)) in sp_cycle p x /\ Inv (fst (step s i)) (sp_next p x).
  Proof.
    intros Ef HI. unfold Inv in HI. rewrite Ef in HI. destruct HI as [C [[Ha [Hp [Hs [HR Ho]]]] [Hn [Hq Ht]]]].
    destruct s as [mem q shown fsm [k d c v o] tgt fin addr prog]. unfold op_ok in Ho. st_cbn. subst fsm q prog addr.
    cbv zeta. set (s := mk_cu mem [] shown CLookup (mk_stash k d c v o) tgt fin 0 0). set (x := (i, snd (step s i))).
    assert (quiet x) as HQ by (unfold quiet; repeat split; reflexivity).
    assert (g_ins x = if ui_irr i && (is_orig o OInsert && (c =? 0)) then Some (true, k, d) else None) as HG.
    { unfold g_ins, x, s, cu_step. st_cbn. destruct (ui_irr i); [|reflexivity]. cbn [andb]. rewrite orb_false_r. destruct (c =? 0); [reflexivity|]. rewrite andb_false_r. reflexivity. }
    assert (cu_mem (fst (step s i)) = mem) as Em by reflexivity.
    destruct (is_orig o OInsert && (c =? 0)) eqn:Ep.
    - apply andb_true_iff in Ep. destruct Ep as [Ei Ec]. destruct o; try discriminate Ei. apply Nat.eqb_eq in Ec. subst c.
      destruct Ho as [Hv [_ [k0 [d0 [Hi HC]]]]]. specialize (Hn eq_refl HMR). rewrite andb_true_r in HG.
      split; [apply quiet_cycle; [exact HQ|]; intros pop k1 d1; rewrite HG; destruct (ui_irr i); [|discriminate]; intros [= <- <- <-]; exists k0, d0; split; [exact Hi|];
        rewrite <- HC; unfold put; rewrite N.eqb_refl; reflexivity|].
      destruct (ui_irr i) eqn:Er.
      + rewrite (quiet_ins p x true k d k0 d0 HQ HG Hi). unfold Inv, s, cu_step. st_cbn. rewrite Er. cbn [andb Nat.eqb is_fsm orb negb].
        unfold idle_ok. st_cbn. split; [reflexivity|]. split; [reflexivity|]. split; [|split; [exact Ht|]].
        * apply (R_ext _ C); [exact HR|]. intros y. unfold rem. destruct (N.eqb_spec y k) as [-> |Hy]; [symmetry; exact Hn|]. rewrite <- HC. unfold put.
          apply N.eqb_neq in Hy. rewrite Hy. reflexivity.
        * split; [reflexivity|]. split; [lia|]. split; [intros k' x' []|]. rewrite Hs. reflexivity.
      + rewrite (quiet_next p x HQ HG). unfold Inv, s, cu_step. st_cbn. rewrite Er. cbn [andb Nat.eqb is_fsm orb negb]. exists C.
        split; [|split; [intros _ _; exact Hn|split; [reflexivity|exact Ht]]]. unfold busy, op_ok. st_cbn. split; [reflexivity|]. split; [reflexivity|]. split; [exact Hs|]. split; [exact HR|]. split; [exact Hv|]. split; [lia|]. exists k0, d0. auto.
    - rewrite andb_false_r in HG. split; [apply quiet_cycle; [exact HQ|]; rewrite HG; discriminate|]. rewrite (quiet_next p x HQ HG).
      assert ((c =? 0) && is_orig o OInsert = false) as Ep1 by (rewrite andb_comm; exact Ep).
      assert (negb (c =? 0) || negb (is_orig o OInsert) = true) as Ep2 by (rewrite <- negb_andb, Ep1; reflexivity).
      assert (negb (c =? 0) || is_orig o ODelete = true) as Ep3 by (destruct o; [cbn in Ep2 |- *; rewrite orb_false_r in *; exact Ep2|destruct Ho|apply orb_true_r]).
      assert (is_orig o OLookup = false) as Ep4 by (destruct o; [reflexivity|destruct Ho|reflexivity]).
      unfold Inv, s, cu_step. st_cbn. rewrite Ep1, Ep2, Ep3. cbn [andb is_fsm orb negb].
      destruct (forallb (t_lrd i) (tbl TC)) eqn:Ea; cbn [andb is_fsm orb negb app].
      + exists C. eexists. split; [|split; [|split; [reflexivity|split; [|exact Ht]]]].
        * unfold busy. split; [reflexivity|]. split; [reflexivity|]. split; [exact Hs|]. split; [exact HR|exact Ho].
        * unfold pos. st_cbn. intros ->. cbn in Ep. apply Nat.eqb_neq in Ep. lia.
        * intros j Hj. reflexivity.
      + exists C. split; [|split; [exact Hn|split; [reflexivity|exact Ht]]]. unfold busy. split; [reflexivity|]. split; [reflexivity|]. split; [exact Hs|]. split; [exact HR|exact Ho].
  Qed.

  Lemma forallb_tbl (f : nat -> bool) : forallb f (tbl TC) = true -> forall j, j < TC -> f j = true.
  Proof. intros H j Hj. rewrite forallb_forall in H. apply H. apply in_seq. lia. Qed.
  Lemma forallb_tbl' (f : nat -> bool) : (forall j, j < TC -> f j = true) -> forallb f (tbl TC) = true.
  Proof. intros H. apply forallb_forall. intros j Hj. apply in_seq in Hj. apply H. lia. Qed.

  Lemma step_wait s p i : cu_fsm s = CWaitRd -> Inv s p -> let x := (i, snd (step s i)) in sp_cycle p x /\ Inv (fst (step s i)) (sp_next p x).
  Proof.
    intros Ef HI. unfold Inv in HI. rewrite Ef in HI. destruct HI as [C [r [[Ha [Hp [Hs [HR Ho]]]] [Hpos [Hq [Hsn Ht]]]]]].
    destruct s as [mem q shown fsm [k d c v o] tgt fin addr prog]. unfold op_ok in Ho. unfold pos in Hpos. st_cbn. subst fsm q prog addr.
    cbv zeta. set (s := mk_cu mem _ shown CWaitRd (mk_stash k d c v o) tgt fin 0 0). set (x := (i, snd (step s i))).
    assert (quiet x) as HQ by (unfold quiet; repeat split; reflexivity).
    assert (g_ins x = None) as HG by (unfold g_ins, x, s, cu_step; st_cbn; destruct (ui_irr i); reflexivity).
    split; [apply quiet_cycle; [exact HQ|]; rewrite HG; discriminate|]. rewrite (quiet_next p x HQ HG).
    unfold Inv, s, cu_step. st_cbn. destruct (forallb (fun j => t_rv i j || shown j) (tbl TC)) eqn:Ea; cbn [andb is_fsm orb negb app].
    - destruct (tgt_ok mem C k r tgt HR Hsn Ht) as [j [Hh [Hd Hf]]]. exists C, r, j. assert (j < TC) as Hj by apply Hh.
      split; [unfold busy; split; [reflexivity|]; split; [reflexivity|]; split; [exact Hs|]; split; [exact HR|exact Ho]|]. split; [exact Hpos|]. split; [reflexivity|]. split; [exact Hh|]. split; [|split].
      + intros j' Hj'. apply (forallb_tbl _ Ea j' Hj').
      + intros ->. rewrite <- (Hsn j Hj). apply Hd. apply Ho.
      + rewrite <- (Hsn j Hj). destruct (new_fin TC k r); [exact Hf|]. destruct Hf as [F1 [F2 F3]]. auto.
    - exists C, r. split; [unfold busy; split; [reflexivity|]; split; [reflexivity|]; split; [exact Hs|]; split; [exact HR|exact Ho]|]. split; [exact Hpos|]. split; [reflexivity|]. split; [exact Hsn|exact Ht].
  Qed.

  Lemma step_ack s p i : cu_fsm s = CAck -> Inv s p -> let x := (i, snd (step s i)) in sp_cycle p x /\ Inv (fst (step s i)) (sp_next p x).
  Proof.
    intros Ef HI. unfold Inv in HI. rewrite Ef in HI. destruct HI as [C [r [j [[Ha [Hp [Hs [HR Ho]]]] [Hpos [Hq [Hh [Hsh [Hd Hf]]]]]]]]].
    destruct s as [mem q shown fsm [k d c v o] tgt fin addr prog]. unfold op_ok in Ho. unfold pos in Hpos. st_cbn. subst fsm q prog addr.
    cbv zeta. set (s := mk_cu mem _ shown CAck (mk_stash k d c v o) tgt fin 0 0). set (x := (i, snd (step s i))).
    assert (quiet x) as HQ by (unfold quiet; repeat split; reflexivity).
    assert (j < TC) as Hj by apply Hh. pose proof (hot_first _ _ Hh) as Hft.
    assert (forallb (fun j => t_rv i j || shown j) (tbl TC) = true) as Hrv by (apply forallb_tbl'; intros j' Hj'; rewrite (Hsh j' Hj'); apply orb_true_r).
    set (mem' := cu_mem (fst (step s i))).
    assert (wr mem j (hash j k) (mk_ci k d v) mem') as Hw.
    { intros j' a' Hj'. unfold mem', s, cu_step. st_cbn. rewrite Hft. destruct Hh as [_ [_ Hh]]. rewrite (Hh j' Hj'). reflexivity. }
    assert (hotor mem' tgt) as Ht by (left; exists j; exact Hh).
    destruct o; [|destruct Ho|].
    - (* insert *)
      destruct Ho as [-> [Hc [k0 [d0 [Hi HC]]]]]. specialize (Hpos eq_refl). clear Hd.
      assert (c =? 0 = false) as Ec by (apply Nat.eqb_neq; lia).
      assert (g_ins x = if ui_irr i && fin then Some (false, k, d) else None) as HG.
      { unfold g_ins, x, s, cu_step. st_cbn. rewrite Ec. destruct (ui_irr i), fin; reflexivity. }
      split; [apply quiet_cycle; [exact HQ|]; intros pop k1 d1; rewrite HG; destruct (ui_irr i && fin); [|discriminate]; intros [= <- <- <-]; exists k0, d0; split; [exact Hi|];
        rewrite <- HC; unfold put; rewrite N.eqb_refl; reflexivity|].
      destruct fin.
      + assert (R mem' (put C k d)) as HR'.
        { apply (R_write mem C j k d mem' _ HR Hj Hw); [destruct Hf as [Hf|Hf]; [left; exact Hf|right; apply Hf]|]. intros y. unfold put.
          destruct (N.eqb_spec y k) as [Ey|Hy]; [reflexivity|]. destruct Hf as [[V K]|[V K]]; [|rewrite V; reflexivity].
          rewrite K. apply N.eqb_neq in Hy. rewrite Hy, andb_false_r. reflexivity. }
        rewrite andb_true_r in HG. destruct (ui_irr i) eqn:Er.
        * rewrite (quiet_ins p x false k d k0 d0 HQ HG Hi).
          assert (cu_fsm (fst (step s i)) = CIdle /\ cu_q (fst (step s i)) = []) as [E1 E2] by (unfold s, cu_step; st_cbn; rewrite Er, Hrv; split; reflexivity).
          unfold Inv. rewrite E1. unfold idle_ok. fold mem'. rewrite E2. st_cbn. split; [reflexivity|]. split; [reflexivity|]. split; [|split; [exact Ht|]].
          { apply (R_ext _ _ _ HR'). intros y. symmetry. apply HC. }
          unfold s, cu_step. st_cbn. rewrite Er. st_cbn. rewrite Hft. st_cbn. split; [reflexivity|]. split; [lia|]. split; [intros k' x' []|]. rewrite Hs. reflexivity.
        * rewrite (quiet_next p x HQ HG).
          assert (cu_fsm (fst (step s i)) = CAck /\ cu_q (fst (step s i)) = [(k, r)] /\ cu_stash (fst (step s i)) = mk_stash k d c true OInsert) as [E1 [E2 E3]]
            by (unfold s, cu_step; st_cbn; rewrite Er; repeat split; reflexivity).
          unfold Inv. rewrite E1. exists (put C k d), r, j. unfold busy, pos. fold mem'. rewrite E2, E3. st_cbn.
          split; [split; [reflexivity|]; split; [reflexivity|]; split; [exact Hs|]; split; [exact HR'|]|].
          { unfold op_ok. st_cbn. split; [reflexivity|]. split; [exact Hc|]. exists k0, d0. split; [exact Hi|]. intros y. rewrite <- HC. unfold put. destruct (y =? k)%N; reflexivity. }
          split; [intros _; exact Hpos|]. split; [reflexivity|]. split; [exact Hh|]. split; [|split; [discriminate|]].
          { intros j' Hj'. unfold s, cu_step. st_cbn. rewrite Er. st_cbn. rewrite (Hsh j' Hj'). apply orb_true_r. }
          left. rewrite (Hw j _ Hj), !Nat.eqb_refl. auto.
      + rewrite andb_false_r in HG. rewrite (quiet_next p x HQ HG). destruct Hf as [Er [V [K Ck]]]. set (y := mem j (hash j k)) in *.
        destruct (r_in _ _ HR j (hash j k) Hj (Hhash j k Hj) V) as [Yh Yc]. fold y in Yh, Yc.
        assert (cu_fsm (fst (step s i)) = CLookup /\ cu_q (fst (step s i)) = [] /\ cu_stash (fst (step s i)) = mk_stash (ci_key y) (ci_data y) (c - 1) true OInsert) as [E1 [E2 E3]].
        { unfold s, cu_step. st_cbn. rewrite Hrv, Hft, Er, V. rewrite wdec_pos; [repeat split; reflexivity|exact Hpos|].
          apply Nat.le_lt_trans with MR; [exact Hc|]. unfold CW, log2ceil. destruct (Nat.leb_spec (MR + 1) 1); [lia|]. destruct (Nat.log2_up_spec (MR + 1) ltac:(lia)). lia. }
        unfold Inv. rewrite E1. exists (fun z => if (z =? k)%N then Some d else if (z =? ci_key y)%N then None else C z).
        rewrite E2, E3. unfold busy. fold mem'. rewrite E3. st_cbn. split; [split; [reflexivity|]; split; [reflexivity|]; split; [exact Hs|]; split|].
        * apply (R_write mem C j k d mem' _ HR Hj Hw); [right; exact Ck|]. intros z. fold y. rewrite V. reflexivity.
        * unfold op_ok. st_cbn. split; [reflexivity|]. split; [lia|]. exists k0, d0. split; [exact Hi|]. intros z. rewrite <- HC. unfold put.
          destruct (N.eqb_spec z (ci_key y)) as [-> |Hz]; [apply N.eqb_neq in K; rewrite K; symmetry; exact Yc|]. reflexivity.
        * split; [|split; [reflexivity|exact Ht]]. intros _ _. apply N.eqb_neq in K. rewrite K, N.eqb_refl. reflexivity.
    - (* delete *)
      destruct Ho as [-> [Hi [HC Hk]]]. destruct (Hd eq_refl) as [V K]. clear Hd Hf Hpos.
      assert (g_ins x = None) as HG by (unfold g_ins, x, s, cu_step; st_cbn; rewrite andb_false_r; destruct (ui_irr i); reflexivity).
      split; [apply quiet_cycle; [exact HQ|]; rewrite HG; discriminate|]. rewrite (quiet_next p x HQ HG).
      assert (cu_fsm (fst (step s i)) = CIdle /\ cu_q (fst (step s i)) = []) as [E1 E2] by (unfold s, cu_step; st_cbn; rewrite Hrv; split; reflexivity).
      unfold Inv. rewrite E1. unfold idle_ok. fold mem'. rewrite E2. st_cbn. split; [reflexivity|]. split; [exact Hi|]. split; [|split; [exact Ht|]].
      { apply (R_delete mem C j k d mem' _ HR Hj Hw V K HC). }
      unfold s, cu_step. st_cbn. rewrite Hft. st_cbn. split; [reflexivity|]. split; [lia|]. split; [intros k' x' []|]. rewrite Hs. reflexivity.
  Qed.

  Definition lnip (s : cu_st D) : bool := (cu_prog s =? 0) && negb (is_orig (sh_orig (cu_stash s)) OLookup).
  (** an accepted clean, delete or insert *)
  Lemma idle_cmd s p i : cu_fsm s = CIdle -> idle_ok s p -> lnip s = true -> ui_clean i || is_some (ui_del i) || is_some (ui_ins i) = true ->
    (forall k, ui_clean i = false -> ui_del i = Some k -> sp_map p k <> None) ->
    let x := (i, snd (step s i)) in sp_cycle p x /\ Inv (fst (step s i)) (sp_next p x).
  Proof.
    intros Ef [Ha [Hi [HR [Ht [Hp [_ [_ Hq]]]]]]] Hl Hc Hd. unfold lnip in Hl. apply andb_true_iff in Hl. destruct Hl as [Hl1 Hl2]. apply Nat.eqb_eq in Hl1.
    destruct s as [mem q shown fsm [k d c v o] tgt fin addr prog]. unfold lk in *. st_cbn. subst fsm addr. rewrite Hl1 in Hp |- *. clear prog Hl1.
    apply negb_true_iff in Hl2. rewrite Hl2 in *. destruct q; [|cbn in Hp; lia]. cbn in Hq. clear Hp.
    assert (forall x, (ui_clean i = true \/ True) -> x = (i, snd (step (mk_cu mem [] shown CIdle (mk_stash k d c v o) tgt fin 0 0) i)) ->
      g_look x = None /\ g_ins x = None /\ a_look x = None /\ a_clean x = ui_clean i /\ (ui_clean i = false -> a_del x = ui_del i) /\ (ui_clean i = false -> ui_del i = None -> a_ins x = ui_ins i)) as HX.
    { intros x _ ->. unfold g_look, g_ins, a_look, a_clean, a_del, a_ins, cu_step. st_cbn. rewrite Hl2. cbn [Nat.eqb andb negb].
      split; [destruct (ui_lrr i); reflexivity|]. split; [destruct (ui_irr i); reflexivity|]. split; [|split; [apply andb_true_r|split]].
      - destruct (ui_clean i), (ui_del i), (ui_ins i); try reflexivity. discriminate Hc.
      - intros ->. reflexivity.
      - intros -> ->. reflexivity. }
    cbv zeta. set (s := mk_cu mem [] shown CIdle (mk_stash k d c v o) tgt fin 0 0) in *. set (x := (i, snd (step s i))). destruct (HX x (or_intror I) eq_refl) as [X1 [X2 [X3 [X4 [X5 X6]]]]]. clear HX.
    split; [unfold sp_cycle; rewrite X1, X2; split; [discriminate|]; split; [discriminate|]; intros _; exact Hi|].
    unfold sp_next. rewrite X1, X2, X3, X4. destruct (ui_clean i) eqn:Ec.
    - unfold Inv, s, cu_step. st_cbn. rewrite Hl2, Ec. st_cbn. cbn [Nat.eqb andb]. unfold clean_ok. st_cbn. repeat split; try assumption; try reflexivity; try lia. rewrite andb_false_r. reflexivity.
    - rewrite (X5 eq_refl). destruct (ui_del i) as [kd|] eqn:Ed.
      + unfold Inv, s, cu_step. st_cbn. rewrite Hl2, Ec, Ed. st_cbn. cbn [Nat.eqb andb]. rewrite orb_true_r. st_cbn. exists (sp_map p).
        split; [|split; [discriminate|split; [rewrite andb_false_r; reflexivity|exact Ht]]]. unfold busy, op_ok. st_cbn. split; [reflexivity|]. split; [reflexivity|]. split; [exact Hq|]. split; [exact HR|].
        split; [reflexivity|]. split; [exact Hi|]. split; [reflexivity|]. apply Hd; reflexivity.
      + rewrite (X6 eq_refl eq_refl). destruct (ui_ins i) as [[ki di]|] eqn:Ei; [|discriminate Hc].
        unfold Inv, s, cu_step. st_cbn. rewrite Hl2, Ec, Ed, Ei. st_cbn. cbn [Nat.eqb andb]. exists (sp_map p).
        split; [|split; [intros _ Hlt; cbn in Hlt; lia|split; [rewrite andb_false_r; reflexivity|exact Ht]]]. unfold busy, op_ok. st_cbn. split; [reflexivity|]. split; [reflexivity|]. split; [exact Hq|]. split; [exact HR|].
        split; [reflexivity|]. split; [lia|]. exists ki, di. auto.
  Qed.

  (** the other cycles of the idle state *)
  Definition i_lt (s : cu_st D) (i : cu_in D) : list N :=
    match ui_clean i, ui_del i, ui_ins i, ui_look i with
    | false, None, None, Some k => if (negb (is_orig (sh_orig (cu_stash s)) OLookup) || forallb (t_lrd i) (tbl TC)) && negb (cu_prog s =? ML - 1) then [k] else []
    | _, _, _, _ => []
    end.
  Definition i_pop (s : cu_st D) (i : cu_in D) : bool :=
    ui_lrr i && match cu_q s with [] => false | _ :: _ => forallb (fun j => t_rv i j || cu_shown s j) (tbl TC) end.
  Definition i_acc (s : cu_st D) (i : cu_in D) : list (N * (nat -> citem)) :=
    if is_orig (sh_orig (cu_stash s)) OLookup && forallb (t_lrd i) (tbl TC) then [(sh_key (cu_stash s), fun j => cu_mem s j (hash j (sh_key (cu_stash s))))] else [].
  Definition i_ans (k : N) (x : nat -> citem) : bool * N * D :=
    let y := x (match first_true (map (fun j => r_found k (x j)) (tbl TC)) with Some j => j | None => 0 end) in (r_found k y, ci_key y, ci_data y).

  Lemma idle_eq s i : cu_fsm s = CIdle -> lnip s && (ui_clean i || is_some (ui_del i) || is_some (ui_ins i)) = false ->
    let s' := fst (step s i) in let x := (i, snd (step s i)) in
    cu_mem s' = cu_mem s /\ cu_fsm s' = CIdle /\ cu_tgt s' = cu_tgt s /\ cu_addr s' = cu_addr s /\
    cu_q s' = (if i_pop s i then tl (cu_q s) else cu_q s) ++ i_acc s i /\
    lk (cu_stash s') = match i_lt s i with [] => if is_orig (sh_orig (cu_stash s)) OLookup && negb (forallb (t_lrd i) (tbl TC)) then [sh_key (cu_stash s)] else [] | l => l end /\
    cu_prog s' = (match i_lt s i, i_pop s i with _ :: _, false => winc (PW ML) (cu_prog s) | [], true => wdec (PW ML) (cu_prog s) | _, _ => cu_prog s end) /\
    a_clean x = false /\ a_del x = None /\ a_ins x = None /\ a_look x = hd_error (i_lt s i) /\ g_ins x = None /\
    g_look x = if i_pop s i then match cu_q s with [] => None | (k, r) :: _ => Some (i_ans k r) end else None.
  Proof.
    destruct s as [mem q shown fsm [k d c v o] tgt fin addr prog]. st_cbn. intros -> Hl. cbv zeta.
    unfold lnip in Hl. st_cbn.
    unfold cu_step, lk, i_lt, i_pop, i_acc, i_ans, a_clean, a_del, a_ins, a_look, g_ins, g_look. st_cbn.
    set (L := is_orig o OLookup) in *. set (ack := forallb (t_lrd i) (tbl TC)) in *. set (P0 := prog =? 0) in *. set (PM := prog =? ML - 1) in *.
    assert (is_orig o OLookup = L) as EL by reflexivity. clearbody ack P0 PM.
    split; [reflexivity|]. split; [destruct (P0 && negb L), (ui_clean i), (ui_del i), (ui_ins i); try reflexivity; discriminate Hl|].
    split; [destruct q as [|[? ?] ?]; reflexivity|]. split; [reflexivity|].
    split; [destruct q as [|[? ?] ?]; [|generalize (forallb (fun j => t_rv i j || shown j) (tbl TC)); intros rv]; destruct (ui_lrr i), L, ack; cbn [andb orb]; rewrite ?app_nil_r, ?orb_false_r; try reflexivity; destruct rv; cbn [andb]; rewrite ?app_nil_r; reflexivity|].
    split.
    { destruct (P0 && negb L) eqn:E0; cbn [andb] in *.
      - apply andb_true_iff in E0. destruct E0 as [_ E0]. apply negb_true_iff in E0. rewrite E0 in *.
        destruct (ui_clean i); [discriminate|]. destruct (ui_del i); [discriminate|]. destruct (ui_ins i); [discriminate|].
        destruct (ui_look i), PM, ack; cbn; try reflexivity; rewrite EL; reflexivity.
      - destruct (ui_clean i), (ui_del i), (ui_ins i) as [[? ?]|], (ui_look i), ack, PM; cbn [andb orb negb is_orig]; rewrite ?andb_false_r, ?andb_true_r, ?orb_true_r, ?orb_false_r, ?EL; try reflexivity;
          destruct L; cbn; rewrite ?EL; reflexivity. }
    split.
    { destruct (ui_clean i), (ui_del i), (ui_ins i) as [[? ?]|], (ui_look i); cbn [andb orb negb is_some]; rewrite ?andb_false_r, ?andb_true_r;
        (destruct q as [|[? ?] ?]; [|generalize (forallb (fun j => t_rv i j || shown j) (tbl TC)); intros rv; destruct rv]); cbn [andb orb negb is_some]; rewrite ?andb_false_r, ?andb_true_r; try reflexivity;
        destruct (ui_lrr i), L, ack, PM; reflexivity. }
    split; [destruct (P0 && negb L), (ui_clean i); try reflexivity; discriminate Hl|].
    split; [destruct (P0 && negb L), (ui_clean i), (ui_del i); try reflexivity; discriminate Hl|].
    split; [destruct (P0 && negb L), (ui_clean i), (ui_del i), (ui_ins i); try reflexivity; discriminate Hl|].
    split; [destruct (ui_clean i), (ui_del i), (ui_ins i), (ui_look i); try reflexivity; destruct L, ack, PM; reflexivity|].
    split; [destruct (ui_irr i); reflexivity|].
    destruct q as [|[kq r] q]; [destruct (ui_lrr i); reflexivity|]. destruct (ui_lrr i); [|reflexivity]. destruct (forallb (fun j => t_rv i j || shown j) (tbl TC)); reflexivity.
  Qed.

  Lemma ans_ok mem M k x : R mem M -> snap mem k x ->
    match M k with Some d => i_ans k x = (true, k, d) | None => fst (fst (i_ans k x)) = false end.
  Proof.
    intros HR Hs. unfold i_ans. destruct (M k) as [d|] eqn:E.
    - destruct (found_in mem M k x HR Hs) as [j [Hj Fj]]; [congruence|].
      destruct (first_true_ex (map (fun j => r_found k (x j)) (tbl TC)) j) as [j' Ej]; [unfold tbl; rewrite (nth_map_seq (fun j => r_found k (x j))) by exact Hj; exact Fj|].
      rewrite Ej. destruct (first_true_some _ _ Ej) as [Hl Hn]. unfold tbl in Hl, Hn. rewrite map_length, seq_length in Hl. rewrite (nth_map_seq (fun j => r_found k (x j))) in Hn by exact Hl.
      rewrite Hn. destruct (found_eq _ _ Hn) as [V K]. rewrite (Hs j' Hl) in *. destruct (r_in _ _ HR j' (hash j' k) Hl (Hhash _ _ Hl) V) as [_ Q]. rewrite K in *. congruence.
    - cbn [fst]. set (j := match first_true _ with Some j => j | None => 0 end).
      assert (j < TC) as Hj. { unfold j. destruct (first_true _) as [j'|] eqn:Ej; [|exact HTC]. destruct (first_true_some _ _ Ej) as [Hl _]. unfold tbl in Hl. rewrite map_length, seq_length in Hl. exact Hl. }
      destruct (r_found k (x j)) eqn:F; [|reflexivity]. destruct (found_eq _ _ F) as [V K]. rewrite (Hs j Hj) in V, K.
      destruct (r_in _ _ HR j (hash j k) Hj (Hhash _ _ Hj) V) as [_ Q]. rewrite K in Q. congruence.
  Qed.

  Lemma step_idle s p i : cu_fsm s = CIdle -> Inv s p -> (forall k, let x := (i, snd (step s i)) in a_clean x = false -> a_del x = Some k -> sp_map p k <> None) ->
    let x := (i, snd (step s i)) in sp_cycle p x /\ Inv (fst (step s i)) (sp_next p x).
  Proof.
    intros Ef HI Hd. unfold Inv in HI. rewrite Ef in HI.
    destruct (lnip s && (ui_clean i || is_some (ui_del i) || is_some (ui_ins i))) eqn:El.
    - apply andb_true_iff in El. destruct El as [El1 El2]. apply idle_cmd; try assumption. intros k Hc Hk. apply Hd.
      + unfold a_clean. cbn [fst]. rewrite Hc. reflexivity.
      + unfold a_del. cbn [fst snd]. unfold cu_step. st_cbn. rewrite Ef, Hc. st_cbn. unfold lnip in El1. rewrite El1. exact Hk.
    - destruct (idle_eq s i Ef El) as [E1 [E2 [E3 [E4 [E5 [E6 [E7 [E8 [E9 [E10 [E11 [E12 E13]]]]]]]]]]]]. cbv zeta. set (x := (i, snd (step s i))) in *. set (s' := fst (step s i)) in *.
      destruct HI as [Ha [Hi [HR [Ht [Hp [Hm [Hs Hq]]]]]]]. split.
      + unfold sp_cycle. rewrite E8, E9, E10, E12, E13, Hq. split; [|split; [discriminate|intros _; exact Hi]].
        intros f k d. destruct (i_pop s i) eqn:Ep; [|discriminate]. destruct (cu_q s) as [|[kq r] q]; [discriminate|]. intros Q0. assert (i_ans kq r = (f, k, d)) as Q by congruence. clear Q0. cbn [map fst app]. do 3 eexists. split; [reflexivity|].
        pose proof (ans_ok _ _ kq r HR (Hs kq r (or_introl eq_refl))) as A. rewrite Q in A. destruct (sp_map p kq); [injection A as -> -> ->; auto|exact A].
      + unfold sp_next. rewrite E8, E9, E10, E11, E12, E13. unfold Inv. rewrite E2. unfold idle_ok. rewrite E1, E3, E4. st_cbn.
        split; [exact Ha|]. split; [exact Hi|]. split; [exact HR|]. split; [exact Ht|].
        assert (length (i_lt s i) <= 1 /\ (i_lt s i <> [] -> is_orig (sh_orig (cu_stash s)) OLookup = true -> forallb (t_lrd i) (tbl TC) = true) /\ (i_lt s i <> [] -> cu_prog s <> ML - 1)) as [L1 [L2 L3]].
        { unfold i_lt. destruct (ui_clean i), (ui_del i), (ui_ins i), (ui_look i); try (split; [cbn; lia|split; intros Q; exfalso; apply Q; reflexivity]).
          destruct (Nat.eqb_spec (cu_prog s) (ML - 1)); [rewrite andb_false_r; split; [cbn; lia|split; intros Q; exfalso; apply Q; reflexivity]|]. rewrite andb_true_r.
          destruct (negb _ || _) eqn:Q; [|split; [cbn; lia|split; intros Q'; exfalso; apply Q'; reflexivity]]. split; [cbn; lia|]. split; [intros _ QL; rewrite QL in Q; exact Q|intros _; assumption]. }
        assert (i_pop s i = true -> cu_q s <> []) as Lp by (unfold i_pop; destruct (cu_q s); [rewrite andb_false_r; discriminate|discriminate]).
        assert (map fst (cu_q s') ++ lk (cu_stash s') = (if i_pop s i then tl (map fst (cu_q s) ++ lk (cu_stash s)) else map fst (cu_q s) ++ lk (cu_stash s)) ++ i_lt s i) as Ek.
        { rewrite E5, E6, map_app. unfold i_acc, lk. destruct (i_lt s i) as [|k l] eqn:Et.
          - rewrite app_nil_r. destruct (is_orig (sh_orig (cu_stash s)) OLookup), (forallb (t_lrd i) (tbl TC)); cbn [andb negb map fst]; rewrite ?app_nil_r;
              destruct (i_pop s i); try reflexivity; destruct (cu_q s) as [|[? ?] ?]; try reflexivity; exfalso; apply (Lp eq_refl); reflexivity.
          - destruct (is_orig (sh_orig (cu_stash s)) OLookup); [rewrite (L2 ltac:(discriminate) eq_refl)|]; cbn [andb negb map fst]; rewrite ?app_nil_r;
              destruct (i_pop s i); try reflexivity; destruct (cu_q s) as [|[? ?] ?]; try reflexivity; exfalso; apply (Lp eq_refl); reflexivity. }
        assert (length (cu_q s') + length (lk (cu_stash s')) = length (map fst (cu_q s') ++ lk (cu_stash s'))) as En by (rewrite app_length, map_length; reflexivity).
        assert (length (map fst (cu_q s) ++ lk (cu_stash s)) = cu_prog s) as En0 by (rewrite app_length, map_length; symmetry; exact Hp).
        assert (i_pop s i = true -> 0 < cu_prog s) as Lq. { intros Q. rewrite Hp. destruct (cu_q s); [exfalso; apply (Lp Q); reflexivity|cbn; lia]. }
        assert (cu_prog s' = length (map fst (cu_q s') ++ lk (cu_stash s'))) as Ep.
        { rewrite Ek, E7, app_length. destruct (i_lt s i) as [|k l]; [|destruct l; [|cbn in L1; lia]]; cbn [length]; destruct (i_pop s i).
          - rewrite wdec_pos; [|apply Lq; reflexivity|unfold PW; lia]. rewrite <- En0. destruct (map fst (cu_q s) ++ lk (cu_stash s)); cbn; lia.
          - lia.
          - pose proof (Lq eq_refl). rewrite <- En0. destruct (map fst (cu_q s) ++ lk (cu_stash s)); cbn in *; lia.
          - pose proof (L3 ltac:(discriminate)). rewrite winc_small; [lia|]. unfold PW. lia. }
        split; [rewrite En; exact Ep|]. split; [|split].
        * rewrite Ep, Ek, app_length. destruct (i_lt s i) as [|k l]; [|destruct l; [|cbn in L1; lia]]; cbn [length].
          { destruct (i_pop s i); [destruct (map fst (cu_q s) ++ lk (cu_stash s)); cbn [tl length] in *|]; lia. }
          { pose proof (L3 ltac:(discriminate)). destruct (i_pop s i); [destruct (map fst (cu_q s) ++ lk (cu_stash s)); cbn [tl length] in *|]; lia. }
        * intros k r Hin. rewrite E5 in Hin. apply in_app_or in Hin. destruct Hin as [Hin|Hin].
          { apply Hs. destruct (i_pop s i); [destruct (cu_q s); [destruct Hin|right; exact Hin]|exact Hin]. }
          { unfold i_acc in Hin. destruct (is_orig (sh_orig (cu_stash s)) OLookup && forallb (t_lrd i) (tbl TC)); [|destruct Hin]. destruct Hin as [Hin|[]]. injection Hin as <- <-. intros j Hj. reflexivity. }
        * rewrite Ek, map_app. destruct (i_lt s i) as [|k l]; [|destruct l; [|cbn in L1; lia]]; cbn [hd_error map]; rewrite ?app_nil_r;
            destruct (i_pop s i); rewrite ?Hq; try reflexivity; (destruct (cu_q s) as [|[kq r] q] eqn:Eq; [exfalso; apply (Lp eq_refl); reflexivity|]); reflexivity.
  Qed.

  Lemma step_any s p i : Inv s p -> (forall k, let x := (i, snd (step s i)) in a_clean x = false -> a_del x = Some k -> sp_map p k <> None) ->
    let x := (i, snd (step s i)) in sp_cycle p x /\ Inv (fst (step s i)) (sp_next p x).
  Proof.
    intros HI Hd. destruct (cu_fsm s) eqn:E; [apply step_idle|apply step_cleaning|apply step_lookup|apply step_wait|apply step_ack]; assumption.
  Qed.
  Lemma cu_run is : forall s p, Inv s p -> dels_ok p (trace step s is) -> cu_law p (trace step s is) /\ Inv (final step s is) (fold_left sp_next (trace step s is) p).
  Proof.
    induction is as [|i is IH]; intros s p HI Hd; [split; [exact I|exact HI]|]. rewrite trace_cons, final_cons in *. cbn [dels_ok cu_law fold_left] in *.
    destruct Hd as [Hd1 Hd2]. destruct (step_any s p i HI Hd1) as [H1 H2]. destruct (IH _ _ H2 Hd2) as [H3 H4]. auto.
  Qed.

  (** * before the first clean the content of tables is arbitrary *)
  Definition J (s : cu_st D) : Prop :=
    match cu_fsm s with
    | CIdle => cu_addr s = 0 /\ cu_prog s = length (cu_q s) + length (lk (cu_stash s)) /\ cu_prog s <= ML - 1
    | CCleaning => cu_prog s = 0 /\ cu_q s = [] /\ sh_orig (cu_stash s) = ODelete /\ cu_addr s < SZ
    | CLookup => cu_prog s = 0 /\ cu_q s = [] /\ cu_addr s = 0 /\ is_orig (sh_orig (cu_stash s)) OLookup = false
    | CWaitRd => cu_prog s = 0 /\ length (cu_q s) = 1 /\ cu_addr s = 0 /\ is_orig (sh_orig (cu_stash s)) OLookup = false
    | CAck => cu_prog s = 0 /\ length (cu_q s) = 1 /\ cu_addr s = 0 /\ is_orig (sh_orig (cu_stash s)) OLookup = false /\ forall j, j < TC -> cu_shown s j = true
    end.
  Lemma idle_prog s i : cu_fsm s = CIdle -> cu_prog s = length (cu_q s) + length (lk (cu_stash s)) -> cu_prog s <= ML - 1 ->
    lnip s && (ui_clean i || is_some (ui_del i) || is_some (ui_ins i)) = false ->
    cu_prog (fst (step s i)) = length (cu_q (fst (step s i))) + length (lk (cu_stash (fst (step s i)))) /\ cu_prog (fst (step s i)) <= ML - 1.
  Proof.
    intros Ef Hp Hm El. destruct (idle_eq s i Ef El) as [_ [_ [_ [_ [E5 [E6 [E7 _]]]]]]]. cbv zeta in *. set (s' := fst (step s i)) in *.
    assert (length (i_lt s i) <= 1 /\ (i_lt s i <> [] -> is_orig (sh_orig (cu_stash s)) OLookup = true -> forallb (t_lrd i) (tbl TC) = true) /\ (i_lt s i <> [] -> cu_prog s <> ML - 1)) as [L1 [L2 L3]].
    { unfold i_lt. destruct (ui_clean i), (ui_del i), (ui_ins i), (ui_look i); try (split; [cbn; lia|split; intros Q; exfalso; apply Q; reflexivity]).
      destruct (Nat.eqb_spec (cu_prog s) (ML - 1)); [rewrite andb_false_r; split; [cbn; lia|split; intros Q; exfalso; apply Q; reflexivity]|]. rewrite andb_true_r.
      destruct (negb _ || _) eqn:Q; [|split; [cbn; lia|split; intros Q'; exfalso; apply Q'; reflexivity]]. split; [cbn; lia|]. split; [intros _ QL; rewrite QL in Q; exact Q|intros _; assumption]. }
    assert (i_pop s i = true -> cu_q s <> []) as Lp by (unfold i_pop; destruct (cu_q s); [rewrite andb_false_r; discriminate|discriminate]).
    assert (length (cu_q s') + length (lk (cu_stash s')) + (if i_pop s i then 1 else 0) = length (cu_q s) + length (lk (cu_stash s)) + length (i_lt s i)) as Ek.
    { rewrite E5, E6, app_length. unfold i_acc, lk. 
      assert (length (if i_pop s i then tl (cu_q s) else cu_q s) + (if i_pop s i then 1 else 0) = length (cu_q s)) as Q.
      { destruct (i_pop s i); [|lia]. destruct (cu_q s); [exfalso; apply (Lp eq_refl); reflexivity|cbn; lia]. }
      destruct (i_lt s i) as [|k l].
      - destruct (is_orig (sh_orig (cu_stash s)) OLookup), (forallb (t_lrd i) (tbl TC)); cbn [andb negb length]; lia.
      - destruct (is_orig (sh_orig (cu_stash s)) OLookup); [rewrite (L2 ltac:(discriminate) eq_refl)|]; cbn [andb negb length]; lia. }
    assert (i_pop s i = true -> 0 < cu_prog s) as Lq. { intros Q. rewrite Hp. destruct (cu_q s); [exfalso; apply (Lp Q); reflexivity|cbn; lia]. }
    rewrite <- Hp in Ek. unfold PW in E7. destruct (i_lt s i) as [|k l]; [|destruct l; [|cbn in L1; lia]]; cbn [length] in Ek; destruct (i_pop s i); rewrite E7.
    - pose proof (Lq eq_refl). rewrite wdec_pos by lia. lia.
    - lia.
    - lia.
    - pose proof (L3 ltac:(discriminate)). rewrite winc_small by lia. lia.
  Qed.
  Lemma J_step s i : J s -> J (fst (step s i)).
  Proof.
    intros HJ. unfold J in HJ. destruct (cu_fsm s) eqn:Ef.
    - destruct HJ as [Ha [Hp Hm]]. destruct (lnip s && (ui_clean i || is_some (ui_del i) || is_some (ui_ins i))) eqn:El.
      + apply andb_true_iff in El. destruct El as [Hl Hc]. unfold lnip in Hl. apply andb_true_iff in Hl. destruct Hl as [Hl1 Hl2]. apply Nat.eqb_eq in Hl1.
        destruct s as [mem q shown fsm [k d c v o] tgt fin addr prog]. unfold lk in *. st_cbn. subst fsm addr. rewrite Hl1 in Hp |- *. clear prog Hl1 Hm.
        apply negb_true_iff in Hl2. rewrite Hl2 in *. destruct q; [|cbn in Hp; lia].
        unfold J, cu_step. st_cbn. rewrite Hl2. st_cbn. cbn [Nat.eqb andb]. destruct (ui_clean i) eqn:Ec.
        * st_cbn. rewrite andb_false_r. repeat split; try reflexivity. exact HSZ.
        * st_cbn. destruct (ui_del i) as [kd|] eqn:Ed; [|destruct (ui_ins i) as [[ki di]|] eqn:Ei; [|discriminate Hc]]; st_cbn; rewrite ?orb_true_r; st_cbn; rewrite ?andb_false_r; repeat split; reflexivity.
      + destruct (idle_prog s i Ef Hp Hm El) as [Q1 Q2]. destruct (idle_eq s i Ef El) as [_ [E2 [_ [E4 _]]]]. unfold J. rewrite E2, E4. auto.
    - destruct HJ as [Hp [Hq [Ho Ha]]]. destruct s as [mem q shown fsm [k d c v o] tgt fin addr prog]. st_cbn. subst fsm q prog o.
      unfold J, cu_step. st_cbn. destruct (Nat.eqb_spec addr (SZ - 1)) as [El|El]; unfold lk; st_cbn; repeat split; try reflexivity; lia.
    - destruct HJ as [Hp [Hq [Ha Ho]]]. destruct s as [mem q shown fsm [k d c v o] tgt fin addr prog]. st_cbn. subst fsm q prog addr.
      unfold J, cu_step, lk. st_cbn. destruct o; try discriminate Ho; destruct (c =? 0), (ui_irr i), (forallb (t_lrd i) (tbl TC)); st_cbn; repeat split; try reflexivity; lia.
    - destruct HJ as [Hp [Hq [Ha Ho]]]. destruct s as [mem q shown fsm [k d c v o] tgt fin addr prog]. st_cbn. subst fsm prog addr.
      destruct q as [|[kq r] [|? ?]]; try discriminate Hq. unfold J, cu_step. st_cbn.
      destruct (forallb (fun j => t_rv i j || shown j) (tbl TC)) eqn:Ea; st_cbn; repeat split; try reflexivity; try exact Ho.
      intros j Hj. apply (forallb_tbl _ Ea j Hj).
    - destruct HJ as [Hp [Hq [Ha [Ho Hsh]]]]. destruct s as [mem q shown fsm [k d c v o] tgt fin addr prog]. st_cbn. subst fsm prog addr.
      destruct q as [|[kq r] [|? ?]]; try discriminate Hq.
      assert (forallb (fun j => t_rv i j || shown j) (tbl TC) = true) as Hrv by (apply forallb_tbl'; intros j' Hj'; rewrite (Hsh j' Hj'); apply orb_true_r).
      unfold J, cu_step, lk. st_cbn. rewrite Hrv. destruct o; try discriminate Ho; destruct fin, (ui_irr i), (first_true tgt); st_cbn; repeat split; try reflexivity; try lia;
        intros j Hj; rewrite (Hsh j Hj); apply orb_true_r.
  Qed.
  Lemma J_run is m k d c v tgt f : J (final step (cu_init m k d c v tgt f) is).
  Proof.
    induction is as [|i is IH] using rev_ind; [unfold J; cbn; repeat split; lia|]. rewrite final_snoc. apply J_step, IH.
  Qed.
  Lemma clean_start s i : J s -> a_clean (i, snd (step s i)) = true -> Inv (fst (step s i)) sp0.
  Proof.
    intros HJ Hc. unfold a_clean in Hc. cbn [fst snd] in Hc. apply andb_true_iff in Hc. destruct Hc as [Hc Hr].
    assert (cu_fsm s = CIdle /\ lnip s = true) as [Ef Hl] by (unfold cu_step in Hr; cbn [snd uo_crd] in Hr; fold (lnip s) in Hr; apply andb_true_iff in Hr; destruct (cu_fsm s); destruct Hr as [H1 H2]; try discriminate H1; auto).
    unfold J in HJ. rewrite Ef in HJ. destruct HJ as [Ha [Hp _]]. unfold lnip in Hl. apply andb_true_iff in Hl. destruct Hl as [Hl1 Hl2]. apply Nat.eqb_eq in Hl1.
    destruct s as [mem q shown fsm [k d c v o] tgt fin addr prog]. unfold lk in *. st_cbn. subst fsm addr. rewrite Hl1 in Hp |- *. clear prog Hl1 Hr.
    apply negb_true_iff in Hl2. rewrite Hl2 in *. destruct q; [|cbn in Hp; lia].
    unfold Inv, cu_step. st_cbn. rewrite Hl2, Hc. st_cbn. cbn [Nat.eqb andb]. unfold clean_ok, sp0. st_cbn. rewrite andb_false_r. repeat split; try reflexivity; try lia.
  Qed.
  Lemma cu_all m k d c v tgt f is1 i is2 :
    let s1 := final step (cu_init m k d c v tgt f) is1 in
    a_clean (i, snd (step s1 i)) = true -> let t := trace step (fst (step s1 i)) is2 in dels_ok sp0 t -> cu_law sp0 t.
  Proof. intros s1 Hc t Hd. apply cu_run; [|exact Hd]. apply clean_start; [apply J_run|exact Hc]. Qed.
End Cuckoo.
