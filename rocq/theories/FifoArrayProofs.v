From Verif Require Import Base BaseFacts OneHotModel OneHotProofs FifoArrayModel FifoArraySpec.
From Coq Require Import Permutation.

Section Chain.
  Context {A : Type}.
  Fixpoint chain (last : nat -> bool) (next : nat -> nat) (val : nat -> A) (l : list (nat * A)) : Prop :=
    match l with
    | [] => True
    | (a, d) :: rest =>
        val a = d /\ match rest with [] => last a = true | (a', _) :: _ => last a = false /\ next a = a' end /\
        chain last next val rest
    end.

  Lemma chain_frame last next val last' next' val' l :
    chain last next val l ->
    (forall a, In a (map fst l) -> val' a = val a /\ last' a = last a) ->
    (forall pre a p x rest, l = pre ++ (a, p) :: x :: rest -> next' a = next a) ->
    chain last' next' val' l.
  Proof.
    induction l as [|[a d] l IH]; intros H Hs Hn; [exact I|]. destruct H as (Hv & Hm & Hc). cbn [chain].
    destruct (Hs a ltac:(now left)) as [Ev El]. split; [congruence|]. split.
    - destruct l as [|[a' d'] l]; [congruence|]. destruct Hm as [Hm1 Hm2].
      split; [congruence|]. rewrite (Hn [] a d (a', d') l eq_refl). exact Hm2.
    - apply IH; [exact Hc| |].
      + intros b Hb. apply Hs. now right.
      + intros pre b p x rest E. apply (Hn ((a, d) :: pre) b p x rest). now rewrite E.
  Qed.

  Lemma chain_append last next val last' next' val' addr ret d pre p :
    chain last next val (pre ++ [(addr, p)]) ->
    NoDup (map fst (pre ++ [(addr, p)])) -> ~ In ret (map fst (pre ++ [(addr, p)])) ->
    (forall a, a <> ret -> val' a = val a) -> (forall a, a <> ret -> a <> addr -> last' a = last a) ->
    (forall a, a <> addr -> next' a = next a) ->
    val' ret = d -> last' ret = true -> last' addr = false -> next' addr = ret ->
    chain last' next' val' (pre ++ [(addr, p); (ret, d)]).
  Proof.
    intros H ND Hr Hv Hl Hn E1 E2 E3 E4. induction pre as [|[a x] pre IH].
    - cbn in *. destruct H as (H1 & _). rewrite Hv by (intros ->; apply Hr; now left). auto.
    - cbn [app chain map fst] in *. destruct H as (H1 & H2 & H3). apply NoDup_cons_iff in ND as [Ha ND'].
      assert (a <> ret) by (intros ->; apply Hr; now left).
      assert (a <> addr). { intros ->. apply Ha. rewrite map_app. apply in_or_app. right. now left. }
      split; [now rewrite Hv|]. split.
      + destruct pre as [|[b y] pre]; cbn [app] in *; destruct H2 as [H2 H4]; rewrite Hl, Hn by assumption; now split.
      + apply IH; [exact H3|exact ND'|intros Hi; apply Hr; now right].
  Qed.
End Chain.

Section Arr.
  Context {A : Type}.
  Variable k : nat.
  Notation node := (nat * A)%type.

  Definition lst (s : fa_st A) (a : nat) : bool := nth a (fa_last s) false.

  Record FRep (s : fa_st A) (ls : list (list node)) : Prop := {
    fr_lv : length (fa_valid s) = ITEMS k;
    fr_ll : length (fa_last s) = ITEMS k;
    fr_nd : NoDup (addrs ls);
    fr_lt : forall a, In a (addrs ls) -> a < ITEMS k;
    fr_v : forall a, nth a (fa_valid s) false = true <-> In a (addrs ls);
    fr_ch : forall l, In l ls -> chain (lst s) (fa_next s) (fa_val s) l;
    fr_ne : forall l, In l ls -> l <> [];
    fr_addr : existsb negb (fa_valid s) = true -> fa_addr s < ITEMS k /\ ~ In (fa_addr s) (addrs ls) }.

  Lemma items_pos : 0 < ITEMS k. Proof. apply pow2_pos. Qed.

  Lemma nth_oh v en a : a < ITEMS k -> nth a (bin_to_onehot k v en) false = en && (v =? a).
  Proof.
    intros Ha. unfold bin_to_onehot, ITEMS in *. destruct en.
    - rewrite (nth_indep _ false (v =? 0)) by (rewrite map_length, seq_length; exact Ha).
      rewrite (map_nth (fun i => v =? i)). rewrite seq_nth by exact Ha. reflexivity.
    - apply nth_repeat.
  Qed.
  Lemma len_oh v en : length (bin_to_onehot k v en) = ITEMS k.
  Proof. unfold bin_to_onehot, ITEMS. destruct en; [now rewrite map_length, seq_length|apply repeat_length]. Qed.

  Lemma nth_map2 (f : bool * bool -> bool) a b n : f (false, false) = false -> length a = length b ->
    nth n (map f (combine a b)) false = f (nth n a false, nth n b false).
  Proof.
    intros Hf Hl. rewrite <- Hf at 1. rewrite map_nth, combine_nth by exact Hl. reflexivity.
  Qed.
  Lemma nth_and_not a b n : length a = length b -> nth n (and_not a b) false = nth n a false && negb (nth n b false).
  Proof. intros H. unfold and_not. now rewrite nth_map2. Qed.
  Lemma nth_or a b n : length a = length b -> nth n (or_bits a b) false = nth n a false || nth n b false.
  Proof. intros H. unfold or_bits. now rewrite nth_map2. Qed.
  Lemma len_and_not a b : length a = length b -> length (and_not a b) = length a.
  Proof. intros H. unfold and_not. rewrite map_length, combine_length. lia. Qed.
  Lemma len_or a b : length a = length b -> length (or_bits a b) = length a.
  Proof. intros H. unfold or_bits. rewrite map_length, combine_length. lia. Qed.

  Lemma exists_free (v : list bool) : existsb negb v = true <-> exists a, a < length v /\ nth a v false = false.
  Proof.
    rewrite existsb_exists. split.
    - intros (x & Hx & Hn). apply (In_nth _ _ false) in Hx as (a & Ha & E). exists a. split; [exact Ha|]. rewrite E. now destruct x.
    - intros (a & Ha & E). exists false. split; [|reflexivity]. rewrite <- E. now apply nth_In.
  Qed.

  Lemma frep_full s ls : FRep s ls -> (existsb negb (fa_valid s) = true <-> length (addrs ls) < ITEMS k).
  Proof.
    intros R. rewrite exists_free. split.
    - intros (a & Ha & E). rewrite (fr_lv _ _ R) in Ha.
      assert (Hn : ~ In a (addrs ls)) by (rewrite <- (fr_v _ _ R), E; discriminate).
      assert (length (a :: addrs ls) <= length (seq 0 (ITEMS k))).
      { apply NoDup_incl_length; [constructor; [exact Hn|apply R]|].
        intros b [<-|Hb]; apply in_seq; [lia|]. pose proof (fr_lt _ _ R b Hb). lia. }
      rewrite seq_length in H. exact H.
    - intros Hl. destruct (existsb negb (fa_valid s)) eqn:E; [now apply exists_free|]. exfalso.
      assert (Hall : incl (seq 0 (ITEMS k)) (addrs ls)).
      { intros a Ha. apply in_seq in Ha. apply (fr_v _ _ R). destruct (nth a (fa_valid s) false) eqn:Ea; [reflexivity|].
        assert (existsb negb (fa_valid s) = true); [|congruence]. apply exists_free. exists a. rewrite (fr_lv _ _ R). split; [lia|exact Ea]. }
      apply NoDup_incl_length in Hall; [|apply seq_NoDup]. rewrite seq_length in Hall. lia.
  Qed.
  Lemma frep_nonempty s ls : FRep s ls -> (existsb (fun b => b) (fa_valid s) = true <-> 0 < length (addrs ls)).
  Proof.
    intros R. rewrite existsb_exists. split.
    - intros (x & Hx & ->). apply (In_nth _ _ false) in Hx as (a & Ha & E). apply (fr_v _ _ R) in E. destruct (addrs ls); [destruct E|cbn; lia].
    - intros H. destruct (addrs ls) as [|a l] eqn:E; [cbn in H; lia|]. exists true. split; [|reflexivity].
      assert (Hv : nth a (fa_valid s) false = true) by (apply (fr_v _ _ R); rewrite E; now left).
      rewrite <- Hv. apply nth_In. rewrite (fr_lv _ _ R). apply (fr_lt _ _ R). rewrite E. now left.
  Qed.

  Lemma nodup_mid (x y z : list nat) : NoDup (x ++ y ++ z) -> NoDup y.
  Proof.
    induction x as [|a x IH]; cbn [app]; [|intros H; apply IH; now apply NoDup_cons_iff in H].
    induction y as [|b y IHy]; cbn [app]; intros H; [constructor|]. apply NoDup_cons_iff in H as [H1 H2].
    constructor; [|now apply IHy]. intros Hb. apply H1. apply in_or_app. now left.
  Qed.

  Lemma addrs_mid l1 (x : list node) l2 : addrs (l1 ++ x :: l2) = addrs l1 ++ map fst x ++ addrs l2.
  Proof. unfold addrs. rewrite concat_app. cbn [concat]. rewrite !map_app. reflexivity. Qed.

  (** the lists after a pop: the address of the head disappears, the remaining chains are tails of the old ones *)
  Lemma popped_facts (ls : list (list node)) a d l n ls1 : NoDup (addrs ls) -> popped ls a d l n ls1 ->
    NoDup (addrs ls1) /\ (forall b, In b (addrs ls1) <-> In b (addrs ls) /\ b <> a) /\ In a (addrs ls) /\
    (forall x, In x ls1 -> x <> [] -> In x ls \/ exists y, In (y :: x) ls).
  Proof.
    intros ND H. destruct H as [l1 d l2 E|l1 d a' d' rest l2 E]; subst ls.
    - rewrite addrs_mid in ND |- *. cbn [map fst app] in *. unfold addrs at 1 2. rewrite concat_app, map_app.
      fold (addrs l1) (addrs l2). pose proof (NoDup_remove_1 _ _ _ ND) as N1. pose proof (NoDup_remove_2 _ _ _ ND) as N2.
      split; [exact N1|]. split; [|split].
      + intros b. rewrite !in_app_iff. cbn [In]. split.
        * intros Hb. split; [tauto|]. intros ->. apply N2. now apply in_or_app.
        * intros [[?|[?|?]] Hne]; [now left|congruence|now right].
      + apply in_or_app. right. now left.
      + intros x Hx _. left. apply in_app_or in Hx. apply in_or_app. destruct Hx; [now left|right; now right].
    - rewrite addrs_mid in ND |- *. rewrite addrs_mid. cbn [map fst app] in *.
      pose proof (NoDup_remove_1 _ _ _ ND) as N1. pose proof (NoDup_remove_2 _ _ _ ND) as N2.
      split; [exact N1|]. split; [|split].
      + intros b. rewrite !in_app_iff. cbn [In]. rewrite in_app_iff. split.
        * intros Hb. split; [tauto|]. intros ->. apply N2. rewrite in_app_iff. cbn [In]. rewrite in_app_iff. exact Hb.
        * intros [[?|[?|?]] Hne]; [now left|congruence|now right].
      + apply in_or_app. right. now left.
      + intros x Hx _. apply in_app_or in Hx as [Hx|[<-|Hx]].
        * left. apply in_or_app. now left.
        * right. exists (a, d). apply in_or_app. right. now left.
        * left. apply in_or_app. right. now right.
  Qed.
  Lemma popped_ne (ls : list (list node)) a d l n ls1 : (forall x, In x ls -> x <> []) -> popped ls a d l n ls1 -> forall x, In x ls1 -> x <> [].
  Proof.
    intros Hne H. destruct H as [l1 d l2 E|l1 d a' d' rest l2 E]; subst ls; intros x Hx.
    - apply Hne. apply in_app_or in Hx. apply in_or_app. destruct Hx; [now left|right; now right].
    - apply in_app_or in Hx as [Hx|[<-|Hx]]; [apply Hne; apply in_or_app; now left|discriminate|].
      apply Hne. apply in_or_app. right. now right.
  Qed.

  Lemma popped_out s ls a d l n ls1 : FRep s ls -> popped ls a d l n ls1 ->
    fa_val s a = d /\ lst s a && nth a (fa_valid s) false = l /\ (forall b, n = Some b -> fa_next s a = b).
  Proof.
    intros R H.
    assert (Hv : nth a (fa_valid s) false = true).
    { apply (fr_v _ _ R). eapply popped_facts; [apply R|exact H]. }
    rewrite Hv, andb_true_r.
    destruct H as [l1 d l2 E|l1 d a' d' rest l2 E].
    - assert (Hc : chain (lst s) (fa_next s) (fa_val s) [(a, d)]) by (apply (fr_ch _ _ R); rewrite E; apply in_or_app; right; now left).
      cbn in Hc. destruct Hc as (H1 & H2 & _). repeat split; try assumption. discriminate.
    - assert (Hc : chain (lst s) (fa_next s) (fa_val s) ((a, d) :: (a', d') :: rest)) by (apply (fr_ch _ _ R); rewrite E; apply in_or_app; right; now left).
      cbn in Hc. destruct Hc as (H1 & (H2 & H3) & _). repeat split; try assumption. intros b Hb. injection Hb as <-. exact H3.
  Qed.

  Lemma fa_valid_next s ls i a : FRep s ls -> a < ITEMS k ->
    nth a (fa_valid (fst (fa_step k s i))) false =
    (nth a (fa_valid s) false && negb (existsb (fun b => b) (fa_valid s) && p_rd i && (p_addr i =? a))) ||
    (i_vld i && existsb negb (fa_valid s) && (fa_addr s =? a)).
  Proof.
    intros R Ha. unfold fa_step. cbn [fst fa_valid].
    rewrite nth_or, nth_and_not, !nth_oh; try exact Ha; try reflexivity.
    - now rewrite len_oh, (fr_lv _ _ R).
    - rewrite len_and_not; now rewrite len_oh, (fr_lv _ _ R).
  Qed.
  Lemma fa_last_next s ls i a : FRep s ls -> a < ITEMS k ->
    lst (fst (fa_step k s i)) a =
    (lst s a && negb (i_vld i && existsb negb (fa_valid s) && i_append i && (i_addr i =? a))) ||
    (i_vld i && existsb negb (fa_valid s) && (fa_addr s =? a)).
  Proof.
    intros R Ha. unfold lst, fa_step. cbn [fst fa_last].
    rewrite nth_or, nth_and_not, !nth_oh; try exact Ha; try reflexivity.
    - now rewrite len_oh, (fr_ll _ _ R).
    - rewrite len_and_not; now rewrite len_oh, (fr_ll _ _ R).
  Qed.
  Lemma nth_len_false (l : list bool) a : length l <= a -> nth a l false = false.
  Proof. apply nth_overflow. Qed.

  Lemma frep_step s ls i ls1 ls2 : FRep s ls ->
    let o := snd (fa_step k s i) in
    (if p_vld o && p_rd i then exists d l n, popped ls (p_addr i) d l n ls1 else ls1 = ls) ->
    (if i_vld i && i_rd o then inserted false ls1 (i_addr i) (i_ret o) (i_data i) (i_append i) ls2 else ls2 = ls1) ->
    FRep (fst (fa_step k s i)) ls2.
  Proof.
    intros R o Hpop Hins.
    assert (Ep : p_vld o = existsb (fun b => b) (fa_valid s)) by reflexivity.
    assert (Ei : i_rd o = existsb negb (fa_valid s)) by reflexivity.
    assert (Er : i_ret o = fa_addr s) by reflexivity.
    rewrite Ep in Hpop. rewrite Ei, Er in Hins. clear Ep Ei Er o.
    set (s' := fst (fa_step k s i)).
    assert (Lv : length (fa_valid s') = ITEMS k).
    { unfold s', fa_step. cbn [fst fa_valid]. rewrite len_or; rewrite len_and_not; rewrite ?len_oh, ?(fr_lv _ _ R); reflexivity. }
    assert (Ll : length (fa_last s') = ITEMS k).
    { unfold s', fa_step. cbn [fst fa_last]. rewrite len_or; rewrite len_and_not; rewrite ?len_oh, ?(fr_ll _ _ R); reflexivity. }
    (* facts about ls1 *)
    assert (P : NoDup (addrs ls1) /\
                (forall b, In b (addrs ls1) <-> In b (addrs ls) /\ (existsb (fun b => b) (fa_valid s) && p_rd i && (p_addr i =? b) = false)) /\
                (forall x, In x ls1 -> chain (lst s) (fa_next s) (fa_val s) x) /\ (forall x, In x ls1 -> x <> [])).
    { destruct (existsb (fun b => b) (fa_valid s) && p_rd i).
      - destruct Hpop as (d & l & n & Hpop). destruct (popped_facts _ _ _ _ _ _ (fr_nd _ _ R) Hpop) as (N1 & I1 & _ & C1).
        pose proof (popped_ne _ _ _ _ _ _ (fr_ne _ _ R) Hpop) as Ne.
        split; [exact N1|]. split; [|split; [|exact Ne]].
        + intros b. rewrite I1. cbn [andb]. rewrite Nat.eqb_neq. split; intros []; split; auto.
        + intros x Hx. destruct (C1 x Hx (Ne x Hx)) as [Hl|[y Hl]]; apply (fr_ch _ _ R) in Hl; [exact Hl|].
          destruct y as [ya yd]. cbn [chain] in Hl. apply Hl.
      - subst ls1. split; [apply R|]. split; [|split; apply R]. intros b. cbn [andb]. tauto. }
    clear Hpop. destruct P as (N1 & I1 & C1 & Ne1).
    assert (Lt1 : forall b, In b (addrs ls1) -> b < ITEMS k) by (intros b Hb; apply (fr_lt _ _ R); now apply I1).
    (* valid bits after the step *)
    assert (V1 : forall b, nth b (fa_valid s') false = true <->
                   In b (addrs ls1) \/ (i_vld i && existsb negb (fa_valid s) = true /\ b = fa_addr s)).
    { intros b. destruct (Nat.ltb_spec b (ITEMS k)) as [Hb|Hb].
      - unfold s'. rewrite (fa_valid_next _ _ _ _ R Hb), orb_true_iff, !andb_true_iff, negb_true_iff, Nat.eqb_eq, I1, (fr_v _ _ R).
        split; [intros [?|[? <-]]; tauto|intros [?|[? ->]]; tauto].
      - rewrite nth_len_false by (rewrite Lv; exact Hb). split; [discriminate|].
        intros [H|[H E]]; [apply Lt1 in H; lia|]. apply andb_true_iff in H as [_ H]. destruct (fr_addr _ _ R H). lia. }
    assert (Addr : forall l, existsb negb (fa_valid s') = true -> (forall b, In b l <-> nth b (fa_valid s') false = true) ->
                   fa_addr s' < ITEMS k /\ ~ In (fa_addr s') l).
    { intros l Hf Hl.
      assert (Hne : map negb (fa_valid s') <> []).
      { intros E. apply (f_equal (@length bool)) in E. rewrite map_length, Lv in E. pose proof items_pos. cbn in E. lia. }
      assert (E : fa_addr s' = first_set (map negb (fa_valid s'))).
      { pose proof (onehot_to_bin_eq _ Hne) as E. unfold s' in *. unfold fa_step in *. cbn [fst fa_addr fa_valid] in *. now rewrite E. }
      assert (Hfs : nth (first_set (map negb (fa_valid s'))) (fa_valid s') false = false /\
                    first_set (map negb (fa_valid s')) < ITEMS k).
      { pose proof (first_set_lt _ Hne) as Hlt. rewrite map_length, Lv in Hlt. split; [|exact Hlt].
        clear -Hf. induction (fa_valid s') as [|b v IH]; [discriminate|]. cbn [existsb] in Hf.
        destruct b; cbn [negb orb] in Hf.
        - destruct v as [|b' v]; [discriminate|]. cbn [map negb]. 
          change (first_set (false :: map negb (b' :: v))) with (S (first_set (map negb (b' :: v)))). exact (IH Hf).
        - cbn [map negb]. destruct v; reflexivity. }
      rewrite E. split; [apply Hfs|]. rewrite Hl. destruct Hfs as [Hfs _]. rewrite Hfs. discriminate. }
    destruct (i_vld i && existsb negb (fa_valid s)) eqn:Eins.
    - assert (Hfree : existsb negb (fa_valid s) = true) by (now apply andb_true_iff in Eins).
      destruct (fr_addr _ _ R Hfree) as [Ha Hna].
      assert (Hna1 : ~ In (fa_addr s) (addrs ls1)) by (intros H; apply Hna; now apply I1).
      assert (Ev : forall a, fa_val s' a = if a =? fa_addr s then i_data i else fa_val s a).
      { intros a. unfold s', fa_step. cbn [fst fa_val]. rewrite Eins. reflexivity. }
      assert (En : forall a, fa_next s' a = if a =? i_addr i then fa_addr s else fa_next s a).
      { intros a. unfold s', fa_step. cbn [fst fa_next]. rewrite Eins. reflexivity. }
      assert (El : forall a, a < ITEMS k -> lst s' a = (lst s a && negb (i_append i && (i_addr i =? a))) || (fa_addr s =? a)).
      { intros a Hb. unfold s'. rewrite (fa_last_next _ _ _ _ R Hb), Eins. reflexivity. }
      remember (i_append i) as ap eqn:Eap. destruct Hins as [Hg|l1 pre p l2 E].
      + (* new list *)
        assert (Ha2 : addrs ([(fa_addr s, i_data i)] :: ls1) = fa_addr s :: addrs ls1) by reflexivity.
        constructor; rewrite ?Ha2; try assumption.
        * constructor; assumption.
        * intros a [<-|H]; [exact Ha|now apply Lt1].
        * intros b. rewrite V1. cbn [In]. split; [intros [?|[_ ->]]; auto|intros [<-|?]; auto].
        * intros l [<-|Hl].
          { cbn [chain]. rewrite Ev, Nat.eqb_refl. split; [reflexivity|]. split; [|exact I]. rewrite El by exact Ha. rewrite Nat.eqb_refl. apply orb_true_r. }
          apply (chain_frame (lst s) (fa_next s) (fa_val s)); [now apply C1| |].
          -- intros a Hin. assert (Hin' : In a (addrs ls1)).
             { unfold addrs. apply in_map_iff in Hin as (x & <- & Hx). apply in_map. apply in_concat. eauto. }
             assert (a <> fa_addr s) by (intros ->; tauto).
             rewrite Ev, El by (now apply Lt1). cbn [andb negb]. rewrite andb_true_r.
             rewrite (proj2 (Nat.eqb_neq a (fa_addr s))), (proj2 (Nat.eqb_neq (fa_addr s) a)) by congruence.
             rewrite orb_false_r. now split.
          -- intros pre a p x rest E. rewrite En. destruct (Nat.eqb_spec a (i_addr i)) as [->|]; [|reflexivity].
             exfalso. apply in_split in Hl as (m1 & m2 & ->). apply (Hg eq_refl m1 pre p x rest m2). now rewrite E.
        * intros l [<-|Hl]; [discriminate|now apply Ne1].
        * intros Hf. apply Addr; [exact Hf|]. intros b. rewrite V1. cbn [In]. split; [intros [<-|?]; auto|intros [?|[_ ->]]; auto].
      + (* append *)
        subst ls1. rewrite addrs_mid in N1, I1, V1, Hna1, Lt1.
        assert (Ha2 : addrs (l1 ++ (pre ++ [(i_addr i, p); (fa_addr s, i_data i)]) :: l2) =
                      addrs l1 ++ (map fst (pre ++ [(i_addr i, p)]) ++ [fa_addr s]) ++ addrs l2).
        { rewrite addrs_mid. rewrite !map_app. cbn [map fst]. rewrite <- !app_assoc. reflexivity. }
        assert (Hin2 : forall b, In b (addrs (l1 ++ (pre ++ [(i_addr i, p); (fa_addr s, i_data i)]) :: l2)) <->
                        In b (addrs l1 ++ map fst (pre ++ [(i_addr i, p)]) ++ addrs l2) \/ b = fa_addr s).
        { intros b. rewrite Ha2, !in_app_iff. cbn [In]. intuition. }
        assert (Hpa : In (i_addr i) (map fst (pre ++ [(i_addr i, p)]))).
        { rewrite map_app. apply in_or_app. right. now left. }
        assert (Hfr : fa_addr s <> i_addr i).
        { intros E. apply Hna1. rewrite E. apply in_or_app. right. apply in_or_app. now left. }
        assert (Hother : forall l, In l l1 \/ In l l2 -> chain (lst s') (fa_next s') (fa_val s') l).
        { intros l Hl.
          assert (Hsub : forall a, In a (map fst l) -> In a (addrs l1) \/ In a (addrs l2)).
          { intros a Hin. apply in_map_iff in Hin as (x & <- & Hx).
            destruct Hl; [left|right]; apply in_map; apply in_concat; eauto. }
          assert (Hd : forall a, In a (map fst l) -> a <> i_addr i /\ a <> fa_addr s /\ a < ITEMS k).
          { intros a Hin. apply Hsub in Hin.
            assert (Hin3 : In a (addrs l1 ++ map fst (pre ++ [(i_addr i, p)]) ++ addrs l2)) by (rewrite !in_app_iff; tauto).
            split; [|split; [intros ->; tauto|now apply Lt1]].
            intros ->. rewrite map_app in N1, Hpa. cbn [map fst] in N1.
            assert (N1' : NoDup ((addrs l1 ++ map fst pre) ++ i_addr i :: addrs l2)).
            { rewrite <- app_assoc. cbn [app] in *. rewrite <- app_assoc in N1. exact N1. }
            apply NoDup_remove_2 in N1'. apply N1'. rewrite !in_app_iff. tauto. }
          apply (chain_frame (lst s) (fa_next s) (fa_val s)).
          - apply C1. apply in_or_app. destruct Hl; [now left|right; now right].
          - intros a Hin. destruct (Hd a Hin) as (D1 & D2 & D3). rewrite Ev, El by exact D3.
            rewrite (proj2 (Nat.eqb_neq a (fa_addr s))), (proj2 (Nat.eqb_neq (fa_addr s) a)), (proj2 (Nat.eqb_neq (i_addr i) a)) by congruence.
            rewrite andb_false_r. cbn [negb]. rewrite andb_true_r, orb_false_r. now split.
          - intros pre' a p' x rest E. rewrite En. destruct (Hd a) as (D1 & _ & _).
            { rewrite E, map_app. apply in_or_app. right. now left. }
            now rewrite (proj2 (Nat.eqb_neq a (i_addr i))). }
        assert (Haddr : i_addr i < ITEMS k).
        { apply Lt1. apply in_or_app. right. apply in_or_app. now left. }
        assert (Hnew : chain (lst s') (fa_next s') (fa_val s') (pre ++ [(i_addr i, p); (fa_addr s, i_data i)])).
        { assert (Hsub : forall b, In b (map fst (pre ++ [(i_addr i, p)])) -> In b (addrs l1 ++ map fst (pre ++ [(i_addr i, p)]) ++ addrs l2)).
          { intros b Hb. rewrite !in_app_iff. tauto. }
          pose proof (C1 (pre ++ [(i_addr i, p)]) ltac:(apply in_or_app; right; now left)) as Hc.
          assert (Hc' : chain (fun a => if a <? ITEMS k then lst s a else lst s' a) (fa_next s) (fa_val s) (pre ++ [(i_addr i, p)])).
          { apply (chain_frame (lst s) (fa_next s) (fa_val s)); [exact Hc| |reflexivity].
            intros a Hb. split; [reflexivity|]. apply Hsub, Lt1 in Hb. now rewrite (proj2 (Nat.ltb_lt _ _) Hb). }
          apply (chain_append _ _ _ _ _ _ _ _ _ _ _ Hc').
          - exact (nodup_mid _ _ _ N1).
          - intros H. apply Hna1. now apply Hsub.
          - intros a Hb. rewrite Ev. now rewrite (proj2 (Nat.eqb_neq a (fa_addr s))).
          - intros a Hb Hc2. cbv beta. destruct (Nat.ltb_spec a (ITEMS k)) as [Hlt|]; [|reflexivity]. rewrite El by exact Hlt.
            rewrite (proj2 (Nat.eqb_neq (fa_addr s) a)), (proj2 (Nat.eqb_neq (i_addr i) a)) by congruence.
            cbn [andb negb]. now rewrite andb_true_r, orb_false_r.
          - intros a Hb. rewrite En. now rewrite (proj2 (Nat.eqb_neq a (i_addr i))).
          - rewrite Ev. now rewrite Nat.eqb_refl.
          - rewrite El by exact Ha. rewrite Nat.eqb_refl. apply orb_true_r.
          - rewrite El by exact Haddr. rewrite Nat.eqb_refl. cbn [andb negb]. rewrite andb_false_r.
            rewrite (proj2 (Nat.eqb_neq _ _)) by exact Hfr. reflexivity.
          - rewrite En. now rewrite Nat.eqb_refl. }
        constructor; try assumption.
        * rewrite Ha2. rewrite <- app_assoc. cbn [app].
          assert (Hp : Permutation (fa_addr s :: addrs l1 ++ map fst (pre ++ [(i_addr i, p)]) ++ addrs l2)
                                   (addrs l1 ++ map fst (pre ++ [(i_addr i, p)]) ++ fa_addr s :: addrs l2)).
          { rewrite !(app_assoc (addrs l1)). apply Permutation_middle. }
          apply (Permutation_NoDup Hp). constructor; assumption.
        * intros a H. apply Hin2 in H as [H| ->]; [now apply Lt1|exact Ha].
        * intros b. rewrite V1, Hin2. split; (intros [?|H]; [now left|]); [destruct H; auto|subst; auto].
        * intros l Hl. apply in_app_or in Hl as [Hl|[<-|Hl]]; [apply Hother; now left|exact Hnew|apply Hother; now right].
        * intros l Hl. apply in_app_or in Hl as [Hl|[<-|Hl]].
          -- apply Ne1. apply in_or_app. now left.
          -- destruct pre; discriminate.
          -- apply Ne1. apply in_or_app. right. now right.
        * intros Hf. apply Addr; [exact Hf|]. intros b. rewrite V1, Hin2. split; (intros [?|H]; [now left|]); [subst; auto|destruct H; auto].
    - subst ls2.
      assert (Es : forall a, a < ITEMS k -> lst s' a = lst s a).
      { intros a Hb. unfold s'. rewrite (fa_last_next _ _ _ _ R Hb), Eins. cbn [andb negb]. now rewrite andb_true_r, orb_false_r. }
      constructor; try assumption.
      + intros b. rewrite V1. split; [intros [?|[? _]]; [assumption|discriminate]|now left].
      + intros l Hl. apply (chain_frame (lst s) (fa_next s) (fa_val s)); [now apply C1| |].
        * intros a Hin. split; [unfold s', fa_step; cbn [fst fa_val]; now rewrite Eins|].
          apply Es, Lt1. unfold addrs. apply in_map_iff in Hin as (x & <- & Hx). apply in_map. apply in_concat. eauto.
        * intros. unfold s', fa_step; cbn [fst fa_next]; now rewrite Eins.
      + intros Hf. apply Addr; [exact Hf|]. intros b. rewrite V1. split; [now left|intros [?|[? _]]; [assumption|discriminate]].
  Qed.

  Lemma frep_init (v0 : nat -> A) n0 : FRep (fa_init k v0 n0) [].
  Proof.
    constructor; cbn [fa_init fa_valid fa_last fa_addr]; try (apply repeat_length); try (intros ? []); try constructor.
    - rewrite nth_repeat. discriminate.
    - intros [].
    - apply items_pos.
    - intros [].
  Qed.

  Lemma frep_law s ls is : FRep s ls -> array_law false (ITEMS k) ls (trace (fa_step k) s is).
  Proof.
    revert s ls. induction is as [|i is IH]; intros s ls R; [exact I|].
    rewrite trace_cons. cbn [array_law]. split; [|split; [|split; [|split]]].
    - apply (frep_full _ _ R).
    - apply (frep_nonempty _ _ R).
    - apply (fr_addr _ _ R).
    - intros d l n ls1 H. exact (popped_out _ _ _ _ _ _ _ R H).
    - intros ls1 ls2 Hp Hi. apply IH. exact (frep_step _ _ _ _ _ R Hp Hi).
  Qed.

  Lemma fa_law (v0 : nat -> A) n0 is : array_law false (2 ^ k) [] (trace (fa_step k) (fa_init k v0 n0) is).
  Proof. apply frep_law. apply frep_init. Qed.
End Arr.

(** two nodes in one list, then a new list is inserted with addr of the first of them *)
Notation fa_bad := [mk_fai true 0 false 10 false 0; mk_fai true 0 true 11 false 0; mk_fai true 0 false 12 false 0; mk_fai false 0 false 0 true 0].
Lemma fa_bad_law : ~ array_law true 4 [] (trace (fa_step 2) (fa_init 2 (fun _ => 0) (fun _ => 3)) fa_bad).
Proof.
  set (t := trace _ _ _). vm_compute in t. subst t. intros H.
  destruct H as (_ & _ & _ & _ & H). specialize (H _ [[(0, 10)]] eq_refl). cbn in H.
  specialize (H ltac:(apply ins_new; discriminate)).
  destruct H as (_ & _ & _ & _ & H). specialize (H _ [[(0, 10); (1, 11)]] eq_refl). cbn in H.
  specialize (H ltac:(exact (ins_app _ _ _ _ _ [] [] 10 [] eq_refl))).
  destruct H as (_ & _ & _ & _ & H). specialize (H _ [[(2, 12)]; [(0, 10); (1, 11)]] eq_refl). cbn in H.
  specialize (H ltac:(apply ins_new; discriminate)).
  destruct H as (_ & _ & _ & H & _). cbn in H.
  destruct (H 10 false (Some 1) [[(2, 12)]; [(1, 11)]]) as (_ & _ & H3); [exact (pop_more _ _ [[(2, 12)]] 10 1 11 [] [] eq_refl)|].
  specialize (H3 1 eq_refl). discriminate.
Qed.
