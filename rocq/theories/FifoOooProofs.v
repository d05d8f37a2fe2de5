From Coq Require Import Lia.
From Verif Require Import Base BaseFacts FifoModel FifoProofs FifoCopyProofs FifoOooModel FifoOooSpec.

Section Ooo.
  Variable n : nat.
  Hypothesis Hn : 0 < n.

  Record OI (s : oo_st) (w r wp : nat) (busy : list nat) : Prop := mk_OI {
    o_rw : r <= w; o_full : w <= r + n; o_wp : wp <= w /\ w <= wp + 1;
    o_busy : Forall (fun k => k < r) busy;
    o_nd : NoDup (map (fun k => k mod n) (busy ++ seq r (w - r)));
    o_w : oo_w s = w mod n; o_r : oo_r s = r mod n;
    o_lp : if oo_lp s then w mod n + n = r mod n + (w - r) else w mod n = r mod n + (w - r);
    o_vld : forall j, j < n -> oo_vld s j = in_slot n (busy ++ seq r (w - r)) j;
    o_lck : forall j, j < n -> oo_lck s j = in_slot n busy j || ((r <? wp) && (r mod n =? j)) }.

  Lemma in_slot_app l l' j : in_slot n (l ++ l') j = in_slot n l j || in_slot n l' j.
  Proof. apply existsb_app. Qed.
  Lemma in_slot_true l j : in_slot n l j = true <-> exists k, In k l /\ k mod n = j.
  Proof.
    unfold in_slot. rewrite existsb_exists. split; intros (k & H & E); exists k; split; try exact H; apply Nat.eqb_eq; exact E.
  Qed.
  Lemma in_slot_cons k l j : in_slot n (k :: l) j = (k mod n =? j) || in_slot n l j.
  Proof. reflexivity. Qed.
  Lemma in_slot_filter l d j : in_slot n (filter (fun k => negb (k mod n =? d)) l) j = in_slot n l j && negb (d =? j).
  Proof.
    induction l as [|k l IH]; [reflexivity|]. cbn [filter]. rewrite in_slot_cons.
    destruct (Nat.eqb_spec (k mod n) d) as [E|E]; cbn [negb].
    - rewrite IH. destruct (Nat.eqb_spec d j), (Nat.eqb_spec (k mod n) j); cbn; rewrite ?andb_false_r, ?andb_true_r; try reflexivity; congruence.
    - rewrite in_slot_cons, IH.
      destruct (Nat.eqb_spec d j), (Nat.eqb_spec (k mod n) j); cbn; rewrite ?andb_false_r, ?andb_true_r; try reflexivity; congruence.
  Qed.

  (** w = r or w = r + n exactly if the pointers are equal *)
  Lemma oi_empty s w r wp b : OI s w r wp b -> ((oo_w s =? oo_r s) && negb (oo_lp s)) = negb (r <? w).
  Proof.
    intros []. rewrite o_w0, o_r0. pose proof (Nat.mod_upper_bound w n). pose proof (Nat.mod_upper_bound r n).
    destruct (oo_lp s), (Nat.eqb_spec (w mod n) (r mod n)), (Nat.ltb_spec r w); cbn; try reflexivity; lia.
  Qed.
  Lemma oi_full s w r wp b : OI s w r wp b -> ((oo_w s =? oo_r s) && oo_lp s) = (w =? r + n).
  Proof.
    intros []. rewrite o_w0, o_r0. pose proof (Nat.mod_upper_bound w n). pose proof (Nat.mod_upper_bound r n).
    destruct (oo_lp s), (Nat.eqb_spec (w mod n) (r mod n)), (Nat.eqb_spec w (r + n)); cbn; try reflexivity; lia.
  Qed.
  Lemma oi_full_held s w r wp b : OI s w r wp b -> w = r + n -> in_slot n (b ++ seq r (w - r)) (w mod n) = true.
  Proof.
    intros [] E. apply in_slot_true. exists r. split; [apply in_or_app; right; apply in_seq; lia|].
    subst w. rewrite <- (Nat.mul_1_l n) at 2. rewrite Nat.mod_add by lia. reflexivity.
  Qed.
  Lemma oi_wrd s w r wp b : OI s w r wp b ->
    negb ((oo_w s =? oo_r s) && oo_lp s) && negb (oo_vld s (oo_w s)) = negb (in_slot n (b ++ seq r (w - r)) (w mod n)).
  Proof.
    intros H. rewrite (oi_full s w r wp b H). pose proof (oi_full_held s w r wp b H) as HF. destruct H.
    rewrite o_w0, (o_vld0 (w mod n)) by (apply Nat.mod_upper_bound; lia).
    destruct (Nat.eqb_spec w (r + n)) as [E|E]; [rewrite (HF E)|]; reflexivity.
  Qed.

  Lemma seq_split r w : r < w -> seq r (w - r) = r :: seq (r + 1) (w - (r + 1)).
  Proof. intros H. replace (w - r) with (S (w - (r + 1))) by lia. cbn [seq]. replace (S r) with (r + 1) by lia. reflexivity. Qed.
  Lemma seq_end r w : r <= w -> seq r (w + 1 - r) = seq r (w - r) ++ [w].
  Proof. intros H. replace (w + 1 - r) with ((w - r) + 1) by lia. rewrite seq_app. cbn [seq]. do 2 f_equal. lia. Qed.

  Lemma step_ptr (p q : nat) w r (wr rd : bool) (lp : bool) :
    p = w mod n -> q = r mod n -> r <= w -> w <= r + n -> (wr = true -> w < r + n) -> (rd = true -> r < w) ->
    (if lp then p + n = q + (w - r) else p = q + (w - r)) ->
    let p' := if wr then ptr_inc n p else p in let q' := if rd then ptr_inc n q else q in
    let w' := if wr then w + 1 else w in let r' := if rd then r + 1 else r in
    let lp' := if wr && (p =? n - 1) then true else if rd && (q =? n - 1) then false else lp in
    p' = w' mod n /\ q' = r' mod n /\ if lp' then p' + n = q' + (w' - r') else p' = q' + (w' - r').
  Proof.
    intros Hp Hq Hrw Hf Hwr Hrd Hlp p' q' w' r' lp'.
    assert (P : p < n) by (subst p; apply Nat.mod_upper_bound; lia).
    assert (Q : q < n) by (subst q; apply Nat.mod_upper_bound; lia).
    split; [|split].
    - unfold p', w'. destruct wr; [rewrite Hp; apply ptr_inc_mod; exact Hn|exact Hp].
    - unfold q', r'. destruct rd; [rewrite Hq; apply ptr_inc_mod; exact Hn|exact Hq].
    - assert (IP : forall x, x < n -> ptr_inc n x = if x =? n - 1 then 0 else x + 1) by (intros x Hx; apply ptr_inc_eq; assumption).
      unfold lp', p', q', w', r'. clear Hp Hq.
      destruct wr; destruct rd; cbn [andb]; rewrite ?IP by assumption;
        repeat match goal with |- context [ (?x =? ?y)%nat ] => destruct (Nat.eqb_spec x y) end;
        destruct lp; try specialize (Hwr eq_refl); try specialize (Hrd eq_refl); lia.
  Qed.

  Lemma pred_slot j r : j < n -> (r mod n =? (j + n - 1) mod n) = ((r + 1) mod n =? j).
  Proof.
    intros Hj. assert (E : (r + 1) mod n = if r mod n =? n - 1 then 0 else r mod n + 1).
    { rewrite <- ptr_inc_mod by exact Hn. apply ptr_inc_eq; [exact Hn|apply Nat.mod_upper_bound; lia]. }
    rewrite E. pose proof (Nat.mod_upper_bound r n ltac:(lia)).
    assert (F : (j + n - 1) mod n = if j =? 0 then n - 1 else j - 1).
    { destruct (Nat.eqb_spec j 0) as [->|N]; [apply Nat.mod_small; lia|].
      replace (j + n - 1) with (j - 1 + 1 * n) by lia. rewrite Nat.mod_add by lia. apply Nat.mod_small. lia. }
    rewrite F. destruct (Nat.eqb_spec j 0), (Nat.eqb_spec (r mod n) (n - 1));
      repeat match goal with |- context [ (?x =? ?y)%nat ] => destruct (Nat.eqb_spec x y) end; try reflexivity; lia.
  Qed.

  Lemma nodup_filter_map (l : list nat) f : NoDup (map (fun k => k mod n) l) -> NoDup (map (fun k => k mod n) (filter f l)).
  Proof.
    induction l as [|x l IH]; intros H; [constructor|]. cbn [map] in H. inversion H; subst. cbn [filter].
    destruct (f x); [|apply IH; assumption]. cbn [map]. constructor; [|apply IH; assumption].
    intros Hin. apply H2. apply in_map_iff in Hin. destruct Hin as (y & E & Hy). apply filter_In in Hy.
    apply in_map_iff. exists y. tauto.
  Qed.

  Lemma NoDup_map_perm3 (a b c : list nat) : NoDup (map (fun k => k mod n) (a ++ b)) -> 
    (forall x, In x c -> In x a) -> NoDup (map (fun k => k mod n) c) -> NoDup (map (fun k => k mod n) (c ++ b)).
  Proof.
    intros H Hs Hc. rewrite map_app in *. 
    assert (G : forall (l1 l2 : list nat), NoDup (l1 ++ l2) -> NoDup l2 /\ forall x, In x l1 -> ~ In x l2).
    { induction l1 as [|y l1 IH]; intros l2 Hd; [split; [exact Hd|intros x []]|]. inversion Hd; subst.
      destruct (IH _ H3) as [G1 G2]. split; [exact G1|]. intros x [<-|Hx]; [|apply G2; exact Hx].
      intros Hi. apply H2, in_or_app. right. exact Hi. }
    destruct (G _ _ H) as [Hb Hd]. clear G H.
    revert Hs Hc. generalize c. clear c. induction c as [|x c IH]; intros Hs Hc; [exact Hb|].
    cbn [map] in *. inversion Hc; subst. cbn [app]. constructor; [|apply IH; [intros z Hz; apply Hs; right; exact Hz|assumption]].
    intros Hin. apply in_app_or in Hin. destruct Hin as [Hin|Hin]; [apply H1; exact Hin|].
    apply (Hd (x mod n)); [|exact Hin]. apply in_map_iff. exists x. split; [reflexivity|]. apply Hs. left. reflexivity.
  Qed.

  Lemma NoDup_prefix (a b : list nat) : NoDup (a ++ b) -> NoDup a.
  Proof. induction a as [|x a IH]; intros H; [constructor|]. inversion H; subst. constructor; [|apply IH; assumption]. intros Hi. apply H2, in_or_app. left. exact Hi. Qed.

  Lemma oi_step s w r wp busy i : OI s w r wp busy ->
    let o := snd (oo_step n s i) in
    let write := ooi_wvld i && ooo_wrd o in
    let read := ooi_rrd i && ooo_rvld o in
    let busy' := match ooi_conf i with Some d => filter (fun k => negb (k mod n =? d)) busy | None => busy end in
    (match ooi_conf i with Some d => in_slot n busy d = true | None => True end) ->
    OI (fst (oo_step n s i)) (if write then w + 1 else w) (if read then r + 1 else r) w (if read then busy' ++ [r] else busy').
  Proof.
    intros H o write read busy' Henv.
    pose proof (oi_empty _ _ _ _ _ H) as HE. pose proof (oi_full _ _ _ _ _ H) as HF. pose proof (oi_wrd _ _ _ _ _ H) as HW.
    pose proof (oi_full_held _ _ _ _ _ H) as HFH.
    assert (Hwrite : write = ooi_wvld i && negb (in_slot n (busy ++ seq r (w - r)) (w mod n))).
    { unfold write, o, oo_step. cbn [snd ooo_wrd]. rewrite HW. reflexivity. }
    assert (Hread : read = ooi_rrd i && (r <? w)).
    { unfold read, o, oo_step. cbn [snd ooo_rvld]. rewrite HE, negb_involutive. reflexivity. }
    assert (Hwr_req : ooi_wvld i && negb ((oo_w s =? oo_r s) && oo_lp s) && negb (oo_vld s (oo_w s)) = write).
    { rewrite <- andb_assoc, HW, Hwrite. reflexivity. }
    assert (Hrd_req : ooi_rrd i && negb ((oo_w s =? oo_r s) && negb (oo_lp s)) = read).
    { rewrite HE, negb_involutive, Hread. reflexivity. }
    assert (Hwlt : write = true -> w < r + n /\ in_slot n (busy ++ seq r (w - r)) (w mod n) = false).
    { intros E. rewrite Hwrite in E. apply andb_prop in E. destruct E as [_ E]. apply negb_true_iff in E. split; [|exact E].
      destruct (Nat.eq_dec w (r + n)) as [E'|E']; [rewrite (HFH E') in E; discriminate|]. destruct H. lia. }
    assert (Hrlt : read = true -> r < w).
    { intros E. rewrite Hread in E. apply andb_prop in E. apply Nat.ltb_lt. apply E. }
    assert (Hfw : write && (negb (oo_lp s) || negb (oo_w s =? oo_r s)) = write).
    { destruct write eqn:E; [|reflexivity]. destruct (Hwlt eq_refl) as [E' _].
      destruct (oo_w s =? oo_r s) eqn:Ep; [|rewrite orb_true_r; reflexivity]. cbn in HF. rewrite HF.
      destruct (Nat.eqb_spec w (r + n)); [lia|reflexivity]. }
    assert (Hfr : read && (oo_lp s || negb (oo_w s =? oo_r s)) = read).
    { destruct read eqn:E; [|reflexivity]. specialize (Hrlt eq_refl). apply Nat.ltb_lt in Hrlt. rewrite Hrlt in HE.
      destruct (oo_w s =? oo_r s), (oo_lp s); try reflexivity; discriminate HE. }
    clearbody write read o. clear HE HF HW HFH. destruct H.
    destruct (step_ptr (oo_w s) (oo_r s) w r write read (oo_lp s) o_w0 o_r0 o_rw0 o_full0 (fun E => proj1 (Hwlt E)) Hrlt) as (P1 & P2 & P3).
    { rewrite o_w0, o_r0. exact o_lp0. }
    assert (Hsub : forall x, In x busy' -> In x busy).
    { unfold busy'. destruct (ooi_conf i); [|auto]. intros x Hx. apply filter_In in Hx. apply Hx. }
    assert (Hnd1 : NoDup (map (fun k => k mod n) (busy' ++ seq r (w - r)))).
    { apply (NoDup_map_perm3 busy); [exact o_nd0|exact Hsub|].
      assert (NoDup (map (fun k => k mod n) busy)) by (rewrite map_app in o_nd0; apply (NoDup_prefix _ _ o_nd0)).
      unfold busy'. destruct (ooi_conf i); [apply nodup_filter_map|]; assumption. }
    set (w' := if write then w + 1 else w) in *. set (r' := if read then r + 1 else r) in *.
    set (busy2 := if read then busy' ++ [r] else busy').
    (* the new live items *)
    assert (Hlive : busy2 ++ seq r' (w' - r') = (busy' ++ seq r (w - r)) ++ (if write then [w] else [])).
    { unfold busy2, w', r'. destruct read.
      - specialize (Hrlt eq_refl). rewrite <- app_assoc. cbn [app].
        replace (r :: seq (r + 1) ((if write then w + 1 else w) - (r + 1))) with (seq r ((if write then w + 1 else w) - r)).
        + destruct write; [rewrite seq_end by lia; rewrite app_assoc; reflexivity|rewrite app_nil_r; reflexivity].
        + apply seq_split. destruct write; lia.
      - destruct write; [rewrite seq_end by lia; rewrite app_assoc; reflexivity|rewrite app_nil_r; reflexivity]. }
    assert (Hb' : forall j, in_slot n busy' j = in_slot n busy j && negb (match ooi_conf i with Some d => d =? j | None => false end)).
    { intros j. unfold busy'. destruct (ooi_conf i); [apply in_slot_filter|rewrite andb_true_r; reflexivity]. }
    (* a confirmed slot is not one of the items not read yet *)
    assert (Hdisj : forall j, (match ooi_conf i with Some d => d =? j | None => false end) = true -> in_slot n (seq r (w - r)) j = false /\ in_slot n busy j = true).
    { intros j Hj. destruct (ooi_conf i) as [d|]; [|discriminate Hj]. apply Nat.eqb_eq in Hj. subst j. split; [|exact Henv].
      destruct (in_slot n (seq r (w - r)) d) eqn:E; [|reflexivity]. exfalso.
      apply in_slot_true in E. destruct E as (k & Hk & Ek). apply in_slot_true in Henv. destruct Henv as (k' & Hk' & Ek').
      rewrite map_app in o_nd0. clear -o_nd0 Hk Ek Hk' Ek'.
      assert (I1 : In d (map (fun k => k mod n) busy)) by (apply in_map_iff; exists k'; tauto).
      assert (I2 : In d (map (fun k => k mod n) (seq r (w - r)))) by (apply in_map_iff; exists k; tauto).
      revert I1 I2 o_nd0. generalize (map (fun k => k mod n) busy) as l1. generalize (map (fun k => k mod n) (seq r (w - r))) as l2.
      intros l2 l1 I1 I2 Hd. apply in_split in I1. destruct I1 as (x & y & ->). rewrite <- app_assoc in Hd. cbn [app] in Hd.
      apply NoDup_remove_2 in Hd. apply Hd. apply in_or_app. right. apply in_or_app. right. exact I2. }
    constructor; cbn [oo_step fst oo_w oo_r oo_lp oo_vld oo_lck]; rewrite ?Hwr_req, ?Hrd_req, ?Hfw, ?Hfr.
    - unfold w', r'. destruct write, read; try specialize (Hrlt eq_refl); lia.
    - unfold w', r'. destruct write, read; try (destruct (Hwlt eq_refl)); lia.
    - unfold w'. destruct write; lia.
    - assert (Forall (fun k => k < r) busy').
      { rewrite Forall_forall in *. intros x Hx. apply o_busy0, Hsub, Hx. }
      unfold busy2, r'. destruct read; [|assumption]. apply Forall_app. split; [|repeat constructor; lia].
      apply Forall_impl with (2 := H). intros; lia.
    - rewrite Hlive. destruct write; [|rewrite app_nil_r; exact Hnd1].
      rewrite map_app. cbn [map]. apply NoDup_Add with (a := w mod n) (l := map (fun k => k mod n) (busy' ++ seq r (w - r))).
      + rewrite <- (app_nil_r (map _ (busy' ++ seq r (w - r)))) at 1. apply Add_app.
      + split; [exact Hnd1|]. destruct (Hwlt eq_refl) as [_ E]. intros Hin. apply in_map_iff in Hin. destruct Hin as (k & Ek & Hk).
        assert (in_slot n (busy ++ seq r (w - r)) (w mod n) = true); [|congruence].
        apply in_slot_true. exists k. split; [|exact Ek]. apply in_app_or in Hk. apply in_or_app. destruct Hk as [Hk|Hk]; [left; apply Hsub|right]; exact Hk.
    - exact P1.
    - exact P2.
    - cbn zeta in P1, P2, P3. rewrite P1, P2 in P3. exact P3.
    - intros j Hj. rewrite Hlive, !in_slot_app, Hb'. rewrite (o_vld0 j Hj), in_slot_app.
      destruct (match ooi_conf i with Some d => d =? j | None => false end) eqn:Ec.
      + destruct (Hdisj j Ec) as [D1 D2]. rewrite D1. rewrite andb_false_r. cbn [orb].
        destruct write; [|reflexivity]. destruct (Hwlt eq_refl) as [_ E]. cbn. rewrite orb_false_r.
        destruct (Nat.eqb_spec (w mod n) j) as [E'|]; [|reflexivity].
        rewrite E', in_slot_app, D2 in E. discriminate E.
      + rewrite andb_true_r. destruct write; cbn [andb].
        * rewrite o_w0. cbn [in_slot existsb]. rewrite orb_false_r. destruct (Nat.eqb_spec (w mod n) j); [rewrite orb_true_r|rewrite orb_false_r]; reflexivity.
        * rewrite orb_false_r. reflexivity.
    - intros j Hj. 
      assert (Hb2 : in_slot n busy2 j = in_slot n busy' j || (read && (r mod n =? j))).
      { unfold busy2. destruct read; [|rewrite orb_false_r; reflexivity]. rewrite in_slot_app. cbn. rewrite orb_false_r. reflexivity. }
      rewrite Hb2, Hb'. rewrite (o_vld0 j Hj), (o_lck0 j Hj), in_slot_app, o_r0, o_w0, pred_slot by exact Hj.
      destruct (match ooi_conf i with Some d => d =? j | None => false end) eqn:Ec.
      + (* confirmed *)
        destruct (Hdisj j Ec) as [D1 D2]. rewrite andb_false_r. cbn [negb orb].
        assert (X : forall k, r <= k < w -> (k mod n =? j) = false).
        { intros k Hk. destruct (Nat.eqb_spec (k mod n) j) as [E|]; [|reflexivity]. exfalso.
          assert (in_slot n (seq r (w - r)) j = true); [|congruence]. apply in_slot_true. exists k. split; [apply in_seq; lia|exact E]. }
        unfold r'. destruct read.
        * specialize (Hrlt eq_refl). rewrite (X r) by lia. cbn [andb orb].
          destruct (Nat.ltb_spec (r + 1) w); [|reflexivity]. rewrite (X (r + 1)) by lia. reflexivity.
        * cbn [andb orb]. destruct (Nat.ltb_spec r w); [|reflexivity]. rewrite (X r) by lia. reflexivity.
      + rewrite andb_true_r.
        (* the slot of the new item *)
        destruct (write && (w mod n =? j)) eqn:Ew.
        * apply andb_prop in Ew. destruct Ew as [-> Ew]. apply Nat.eqb_eq in Ew. destruct (Hwlt eq_refl) as [Hlt E].
          rewrite Ew, in_slot_app in E. apply orb_false_elim in E. destruct E as [E1 E2]. rewrite E1. cbn [orb].
          assert (X : forall k, r <= k < w -> (k mod n =? j) = false).
          { intros k Hk. destruct (Nat.eqb_spec (k mod n) j) as [E|]; [|reflexivity]. exfalso.
            assert (in_slot n (seq r (w - r)) j = true); [|congruence]. apply in_slot_true. exists k. split; [apply in_seq; lia|exact E]. }
          unfold r'. destruct read.
          -- specialize (Hrlt eq_refl). rewrite (X r) by lia. cbn [andb orb].
             destruct (Nat.ltb_spec (r + 1) w); [|reflexivity]. rewrite (X (r + 1)) by lia. reflexivity.
          -- cbn [andb orb]. destruct (Nat.ltb_spec r w); [|reflexivity]. rewrite (X r) by lia. reflexivity.
        * assert (Y : forall k, r <= k < w -> k mod n = j -> in_slot n (seq r (w - r)) j = true).
          { intros k Hk E. apply in_slot_true. exists k. split; [apply in_seq; lia|exact E]. }
          assert (Z : in_slot n busy j = false -> in_slot n (seq r (w - r)) j = true -> forall k, r <= k -> k < r + n -> k mod n = j -> k < w).
          { intros _ Hs k Hk1 Hk2 E. apply in_slot_true in Hs. destruct Hs as (k' & Hk' & Ek'). apply in_seq in Hk'.
            assert (k = k'); [|lia].
            destruct (Nat.le_gt_cases k' k); [apply (mod_inj n k' k); lia|symmetry; apply (mod_inj n k k'); lia]. }
          unfold r'. destruct (in_slot n busy j) eqn:Eb.
          -- cbn [orb]. destruct ((r mod n =? j) || ((r + 1) mod n =? j) && read); reflexivity.
          -- cbn [orb]. destruct read.
             ++ specialize (Hrlt eq_refl). rewrite andb_true_r. cbn [andb].
                destruct (Nat.eqb_spec (r mod n) j) as [E0|E0]; cbn [orb].
                ** rewrite (Y r); [reflexivity|lia|exact E0].
                ** destruct (Nat.eqb_spec ((r + 1) mod n) j) as [E1|E1].
                   --- rewrite andb_true_r. destruct (Nat.ltb_spec (r + 1) w) as [L|L]; [apply (Y (r + 1)); [lia|exact E1]|].
                       destruct (in_slot n (seq r (w - r)) j) eqn:Es; [|reflexivity]. exfalso.
                       destruct (Nat.eq_dec n 1) as [N1|N1].
                       { subst n. rewrite !Nat.mod_1_r in *. congruence. }
                       pose proof (Z eq_refl eq_refl (r + 1) ltac:(lia) ltac:(lia) E1). lia.
                   --- rewrite andb_false_r. rewrite andb_false_r. reflexivity.
             ++ rewrite andb_false_r, orb_false_r. cbn [andb orb]. destruct (Nat.eqb_spec (r mod n) j) as [E0|E0].
                ** rewrite andb_true_r. destruct (Nat.ltb_spec r w) as [L|L]; [apply (Y r); [lia|exact E0]|].
                   replace (w - r) with 0 by lia. reflexivity.
                ** rewrite !andb_false_r. reflexivity.
  Qed.

  Lemma ooo_run is : forall s w r wp busy, OI s w r wp busy -> ooo_law n w r wp busy (trace (oo_step n) s is).
  Proof.
    induction is as [|i is IH]; intros s w r wp busy H; [exact I|]. rewrite trace_cons. cbn [ooo_law].
    split; [apply (o_nd _ _ _ _ _ H)|]. split; [unfold oo_step; cbn [snd ooo_wrd]; apply (oi_wrd _ _ _ _ _ H)|].
    split; [unfold oo_step; cbn [snd ooo_rvld]; rewrite (oi_empty _ _ _ _ _ H); apply negb_involutive|].
    split; [apply (o_r _ _ _ _ _ H)|]. split; [apply (o_vld _ _ _ _ _ H)|]. split; [apply (o_lck _ _ _ _ _ H)|].
    intros Henv. apply IH. apply (oi_step s w r wp busy i H Henv).
  Qed.

  Lemma ooo_holds is : ooo_law n 0 0 0 [] (trace (oo_step n) oo_init is).
  Proof.
    apply ooo_run. constructor; cbn; try lia; try reflexivity; try constructor.
    - rewrite Nat.mod_0_l by lia. reflexivity.
    - rewrite Nat.mod_0_l by lia. reflexivity.
  Qed.
End Ooo.
