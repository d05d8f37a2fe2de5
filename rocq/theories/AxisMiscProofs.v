From Verif Require Import Base BaseFacts JoinSplitModel JoinSplitSpec JoinSplitProofs AxisMiscModel AxisMiscSpec.

(** * Axi4S_en *)
Lemma en_run {A} (open : bool) (is : list (en_in A)) : switch_law false open (trace en_step false is).
Proof.
  revert open. induction is as [|i is IH]; intros open; [exact I|]. rewrite trace_cons. cbn [switch_law].
  assert (Es : fst (en_step false i) = false) by reflexivity. rewrite Es. intros H. unfold en_step. cbn [snd e_rd e_ovld e_odata e_olast].
  assert (E : e_en i || open = e_en i) by (destruct H as [H|[->| ->]]; [discriminate|apply orb_false_r|reflexivity]).
  rewrite E, orb_false_r. repeat split; try apply IH; destruct (e_vld i), (e_ord i), (e_en i); reflexivity.
Qed.
Notation en_bad := [mk_eni true 1 false true true; mk_eni true 2 true true false].
Lemma en_bad_law : ~ switch_law true false (trace en_step false en_bad).
Proof.
  intros H. destruct (H (or_introl eq_refl)) as (_ & _ & _ & H2). destruct (H2 (or_introl eq_refl)) as (H3 & _). discriminate.
Qed.

(** * Axi4SJoinPrioritized *)
Lemma nth_error_combine {A B} (a : list A) (b : list B) k :
  nth_error (combine a b) k = match nth_error a k, nth_error b k with Some x, Some y => Some (x, y) | _, _ => None end.
Proof.
  revert b k. induction a as [|x a IH]; intros b k; [now destruct k|]. destruct b as [|y b].
  - destruct k; cbn; [reflexivity|]. now destruct (nth_error a k).
  - destruct k; cbn; [reflexivity|apply IH].
Qed.

Section Join.
  Context {D : Type}.
  Notation word := (bool * D)%type.
  Variables (x : word) (n : nat).

  Record JRep (ens : list bool) (cur : option nat) : Prop := {
    jr_len : length ens = n;
    jr_bit : forall k, nth_error ens k = Some true <-> cur = Some k /\ k < n;
    jr_cur : forall k, cur = Some k -> k < n }.

  Lemma jr_en ens cur k f : JRep ens cur -> nth_error ens k = Some f -> (negb (any ens) || f = true <-> candidate cur k).
  Proof.
    intros R Hf. assert (Hk : k < n) by (rewrite <- (jr_len _ _ R); apply nth_error_Some; congruence).
    destruct cur as [j|]; cbn [candidate].
    - assert (Ha : any ens = true).
      { apply any_true. exists j. pose proof (jr_cur _ _ R j eq_refl) as Hj.
        assert (H : nth_error ens j = Some true) by (apply (jr_bit _ _ R); auto). now apply nth_error_nth with (d := false) in H. }
      rewrite Ha. cbn [negb orb]. split.
      + intros ->. apply (jr_bit _ _ R) in Hf. destruct Hf as [Hf _]. congruence.
      + intros ->. assert (H : nth_error ens j = Some true) by (apply (jr_bit _ _ R); auto). congruence.
    - destruct (any ens) eqn:Ha; [|tauto]. exfalso. apply any_true in Ha as [j Hj].
      destruct (nth_error ens j) as [b|] eqn:E.
      + apply nth_error_nth with (d := false) in E as E2. rewrite Hj in E2. subst b. apply (jr_bit _ _ R) in E. destruct E; discriminate.
      + apply nth_error_None in E. rewrite nth_overflow in Hj by exact E. discriminate.
  Qed.

  Lemma masked_word ens cur (i : join_in word) k w : JRep ens cur -> length (j_in i) = n ->
    nth_error (map (fun p : bool * (bool * word) => (fst p && fst (snd p), snd (snd p)))
                   (combine (map (fun f => negb (any ens) || f) ens) (j_in i))) k = Some (true, w) <->
    candidate cur k /\ in_word i k w.
  Proof.
    intros R Hl. rewrite nth_error_map, nth_error_combine, nth_error_map. unfold in_word.
    destruct (nth_error ens k) as [f|] eqn:Ef.
    - cbn [option_map]. pose proof (jr_en _ _ _ _ R Ef) as Hc.
      destruct (nth_error (j_in i) k) as [[v u]|] eqn:Ei; cbn [option_map fst snd].
      + destruct (negb (any ens) || f); cbn [andb].
        * split; [intros [= -> ->]; split; [now apply Hc|reflexivity]|intros [_ [= -> ->]]; reflexivity].
        * split; [discriminate|]. intros [H _]. apply Hc in H. discriminate.
      + split; [discriminate|intros [_ H]; discriminate].
    - cbn [option_map]. apply nth_error_None in Ef. rewrite (jr_len _ _ R) in Ef.
      assert (E : nth_error (j_in i) k = None) by (apply nth_error_None; lia). rewrite E.
      split; [discriminate|intros [_ H]; discriminate].
  Qed.

  Lemma in_moves_fun (i : join_in word) o k : in_moves i o k -> exists w, in_word i k w /\ nth_error (j_rds o) k = Some true.
  Proof. intros (d & H1 & H2). exists d. auto. Qed.

  Lemma ajoin_cycle ens cur (i : join_in word) : JRep ens cur -> length (j_in i) = n ->
    let o := snd (ajoin_step x ens i) in
    let ens' := fst (ajoin_step x ens i) in
    (j_vld o = true <-> exists k w, candidate cur k /\ in_word i k w) /\
    (forall k, in_moves i o k <->
         j_rd i = true /\ candidate cur k /\ (exists w, in_word i k w) /\ forall j w, j < k -> candidate cur j -> ~ in_word i j w) /\
    (forall k w, in_moves i o k -> in_word i k w ->
         out_moves i o /\ j_data o = w /\ JRep ens' (if fst w then None else Some k)) /\
    ((forall k, ~ in_moves i o k) -> ~ out_moves i o /\ JRep ens' cur).
  Proof.
    intros R Hl o ens'.
    set (en := map (fun f => negb (any ens) || f) ens).
    set (masked := map (fun p : bool * (bool * word) => (fst p && fst (snd p), snd (snd p))) (combine en (j_in i))).
    set (im := mk_jin masked (j_rd i)).
    assert (Hmw : forall k w, in_word im k w <-> candidate cur k /\ in_word i k w).
    { intros k w. exact (masked_word ens cur i k w R Hl). }
    destruct (c12 x im) as (M1 & M2 & M3). set (om := join_prio x im) in *.
    assert (Ovld : j_vld o = j_vld om) by reflexivity.
    assert (Odata : j_data o = j_data om) by reflexivity.
    assert (Ords : j_rds o = map (fun p => fst p && snd p) (combine en (j_rds om))) by reflexivity.
    assert (Lm : length masked = n).
    { unfold masked, en. rewrite map_length, combine_length, map_length, Hl, (jr_len _ _ R). lia. }
    assert (Hmoves : forall k, in_moves i o k <-> in_moves im om k).
    { intros k. unfold in_moves. fold (in_word i k). split.
      - intros (w & Hw & Hr). rewrite Ords, nth_error_map, nth_error_combine in Hr.
        unfold en in Hr at 1. rewrite nth_error_map in Hr. destruct (nth_error ens k) as [f|] eqn:Ef; [|discriminate].
        cbn [option_map] in Hr. destruct (nth_error (j_rds om) k) as [r|] eqn:Er; [|discriminate]. cbn [option_map fst snd] in Hr.
        injection Hr as Hr. apply andb_true_iff in Hr as [Hr1 ->]. exists w. split; [|reflexivity].
        apply Hmw. split; [|exact Hw]. now apply (jr_en _ _ _ _ R Ef).
      - intros (w & Hw & Hr). apply Hmw in Hw as [Hc Hw]. exists w. split; [exact Hw|].
        rewrite Ords, nth_error_map, nth_error_combine. unfold en at 1. rewrite nth_error_map.
        destruct (nth_error ens k) as [f|] eqn:Ef.
        + cbn [option_map]. rewrite Hr. cbn [option_map fst snd]. rewrite (proj2 (jr_en _ _ _ _ R Ef) Hc). reflexivity.
        + exfalso. apply nth_error_None in Ef. rewrite (jr_len _ _ R) in Ef.
          assert (k < length (j_in i)) by (apply nth_error_Some; unfold in_word in Hw; congruence). lia. }
    assert (Hens : forall k f, nth_error ens k = Some f ->
              exists g, nth_error ens' k = Some g /\
                ((exists w, in_word i k w /\ in_moves i o k /\ g = negb (fst w)) \/ (~ in_moves i o k /\ g = f))).
    { intros k f Ef. assert (Hk : k < n) by (rewrite <- (jr_len _ _ R); apply nth_error_Some; congruence).
      assert (Eens : ens' = map (fun p : bool * (bool * (bool * word)) => let '(f, (rd, (v, w))) := p in if rd && v then negb (fst w) else f)
                                (combine ens (combine (map (fun p => fst p && snd p) (combine en (j_rds om))) masked))) by reflexivity.
      rewrite Eens, nth_error_map, !nth_error_combine, Ef, <- Ords.
      assert (Lr : length (j_rds o) = n).
      { rewrite Ords, map_length, combine_length. unfold en. rewrite map_length, (jr_len _ _ R). unfold om, join_prio. cbn [j_rds].
        rewrite map_length, seq_length. unfold nin, im. cbn [j_in]. lia. }
      destruct (nth_error (j_rds o) k) as [r|] eqn:Er; [|apply nth_error_None in Er; lia].
      destruct (nth_error masked k) as [[v w]|] eqn:Em; [|apply nth_error_None in Em; lia].
      cbn [option_map]. eexists. split; [reflexivity|]. destruct (r && v) eqn:Erv.
      - left. apply andb_true_iff in Erv as [-> ->]. exists w.
        assert (Hw : in_word im k w) by exact Em. apply Hmw in Hw as [Hc Hw]. split; [exact Hw|]. split; [|reflexivity].
        exists w. auto.
      - right. split; [|reflexivity]. intros Hm. pose proof Hm as Hm'. apply Hmoves in Hm'. destruct Hm as (u & Hu & Hr), Hm' as (u' & Hu' & _).
        unfold im in Hu'. cbn [j_in] in Hu'. rewrite Hu' in Em. injection Em as <- <-. rewrite Hr in Er. injection Er as <-. discriminate. }
    assert (Lens : length ens' = n).
    { unfold ens', ajoin_step. cbn [fst]. rewrite map_length, !combine_length. fold en masked. fold im. fold om. rewrite map_length, combine_length.
      unfold om at 1, join_prio. cbn [j_rds]. rewrite map_length, seq_length. unfold nin, im. cbn [j_in].
      unfold en. rewrite map_length, (jr_len _ _ R), Lm. lia. }
    assert (Hone : forall k j, in_moves i o k -> in_moves i o j -> k = j).
    { intros k j Hk Hj. apply Hmoves, M1 in Hk as (_ & (wk & Wk) & Lk). apply Hmoves, M1 in Hj as (_ & (wj & Wj) & Lj).
      destruct (Nat.lt_trichotomy k j) as [H|[H|H]]; [exfalso; eapply Lj; eauto|exact H|exfalso; eapply Lk; eauto]. }
    split; [|split; [|split]].
    - rewrite Ovld. unfold om, join_prio. cbn [j_vld]. rewrite any_true. split.
      + intros [k Hk]. apply nth_vlds in Hk as [w Hk]. exists k, w. now apply Hmw.
      + intros (k & w & H). exists k. apply nth_vlds. exists w. now apply Hmw.
    - intros k. rewrite Hmoves, M1. change (j_rd im) with (j_rd i). split.
      + intros (H1 & (w & H2) & H3). apply Hmw in H2 as [Hc Hw]. repeat split; try assumption; [now exists w|].
        intros j u Hj Hcj Hu. apply (H3 j u Hj). now apply Hmw.
      + intros (H1 & Hc & (w & Hw) & H3). repeat split; [exact H1|exists w; now apply Hmw|].
        intros j u Hj Hu. apply Hmw in Hu as [? ?]. now apply (H3 j u).
    - intros k w Hk Hw. pose proof Hk as Hk'. apply Hmoves in Hk'.
      assert (Hc : candidate cur k). { apply M1 in Hk' as (_ & (u & Hu) & _). apply Hmw in Hu. apply Hu. }
      destruct (M2 k w Hk') as [[Ho1 Ho2] Hd]; [now apply Hmw|].
      split; [split; [now rewrite Ovld|exact Ho2]|]. split; [now rewrite Odata|].
      assert (Hkn : k < n) by (rewrite <- Hl; apply nth_error_Some; unfold in_word in Hw; congruence).
      constructor; [exact Lens| |].
      + intros j. destruct (nth_error ens j) as [f|] eqn:Ef.
        * destruct (Hens j f Ef) as (g & Hg & [(u & Hu & Hm & ->)|(Hm & ->)]); rewrite Hg.
          -- rewrite <- (Hone _ _ Hk Hm) in *. unfold in_word in *. rewrite Hw in Hu. injection Hu as <-.
             destruct (fst w); cbn [negb]; split; try congruence; [intros [? _]; discriminate|auto].
          -- assert (j <> k) by (intros ->; contradiction).
             assert (f = false).
             { destruct f; [|reflexivity]. apply (jr_bit _ _ R) in Ef as [-> _]. cbn in Hc. congruence. }
             subst f. split; [discriminate|]. intros [E _]. destruct (fst w); [discriminate|]. congruence.
        * apply nth_error_None in Ef. rewrite (jr_len _ _ R) in Ef.
          assert (E : nth_error ens' j = None) by (apply nth_error_None; lia). rewrite E. split; [discriminate|]. intros [_ ?]. lia.
      + intros j E. destruct (fst w); [discriminate|]. injection E as <-. exact Hkn.
    - intros Hno. split.
      + intros [Ho1 Ho2]. rewrite Ovld in Ho1. destruct M3 as [k Hk]; [split; assumption|]. apply (Hno k). now apply Hmoves.
      + constructor; [exact Lens| |apply R]. intros j. destruct (nth_error ens j) as [f|] eqn:Ef.
        * destruct (Hens j f Ef) as (g & Hg & [(u & Hu & Hm & ->)|(Hm & ->)]); [exfalso; eapply Hno; eauto|]. rewrite Hg, <- Ef. apply R.
        * apply nth_error_None in Ef. rewrite (jr_len _ _ R) in Ef.
          assert (E : nth_error ens' j = None) by (apply nth_error_None; lia). rewrite E. split; [discriminate|]. intros [_ ?]. lia.
  Qed.

  Lemma ajoin_run ens cur is : JRep ens cur -> Forall (fun i : join_in word => length (j_in i) = n) is ->
    frames_law cur (trace (ajoin_step x) ens is).
  Proof.
    revert ens cur. induction is as [|i is IH]; intros ens cur R Hl; [exact I|]. apply Forall_cons_iff in Hl as [Hl Hls].
    rewrite trace_cons. cbn [frames_law]. destruct (ajoin_cycle ens cur i R Hl) as (H1 & H2 & H3 & H4).
    split; [exact H1|]. split; [exact H2|]. split.
    - intros k w Hk Hw. destruct (H3 k w Hk Hw) as (A1 & A2 & A3). split; [exact A1|]. split; [exact A2|]. now apply IH.
    - intros Hn. destruct (H4 Hn) as [A1 A2]. split; [exact A1|]. now apply IH.
  Qed.
  Lemma ajoin_law is : Forall (fun i : join_in word => length (j_in i) = n) is ->
    frames_law None (trace (ajoin_step x) (repeat false n) is).
  Proof.
    apply ajoin_run. constructor; [apply repeat_length| |discriminate]. intros k. split; [|intros [? _]; discriminate].
    intros H. apply nth_error_In in H. apply repeat_spec in H. discriminate.
  Qed.
End Join.

(** * stored bursts *)
Section Burst.
  Context {A : Type}.
  Variables (x : A) (data : list A).
  Notation n := (length data).
  Hypothesis Hn : data <> [].

  Lemma burst_cnt idx : idx < n -> winc (Nat.log2 n + 1) idx = idx + 1.
  Proof.
    intros H. apply winc_small. assert (0 < n) by lia. pose proof (Nat.log2_spec n H0). rewrite Nat.add_1_r. lia.
  Qed.

  Lemma burst_sent_cons (c : bool * burst_out A) t :
    burst_sent (c :: t) = (if fst c && b_vld (snd c) then [(b_data (snd c), b_last (snd c))] else []) ++ burst_sent t.
  Proof. reflexivity. Qed.

  Lemma burst_once idx rds : idx <= n ->
    let t := trace (burst_step false x data) idx rds in
    let s' := final (burst_step false x data) idx rds in
    s' <= n /\ map fst (burst_sent t) ++ skipn s' data = skipn idx data /\
    (forall j w l, nth_error (burst_sent t) j = Some (w, l) -> l = (idx + j + 1 =? n)).
  Proof.
    revert idx. induction rds as [|rd rds IH]; intros idx H.
    - cbn. split; [exact H|]. split; [reflexivity|]. intros j w l E. destruct j; discriminate.
    - intros t s'. subst t s'. rewrite trace_cons, final_cons. rewrite burst_sent_cons. cbn [fst snd].
      set (c := burst_step false x data idx rd). 
      assert (Hs : fst c = if rd then if idx <? n then idx + 1 else idx else idx).
      { unfold c, burst_step. cbn [fst]. destruct rd; [|reflexivity]. destruct (Nat.ltb_spec idx n); [now apply burst_cnt|reflexivity]. }
      rewrite Hs. assert (Ho : snd c = mk_bo (idx <? n) (nth idx data x) (idx =? n - 1)) by reflexivity. rewrite Ho. cbn [b_vld b_data b_last].
      destruct rd; cbn [andb].
      + destruct (Nat.ltb_spec idx n) as [Hlt|Hge].
        * destruct (IH (idx + 1) ltac:(lia)) as (I1 & I2 & I3). split; [exact I1|]. split.
          -- cbn [app map fst]. rewrite I2.
             rewrite Nat.add_1_r. clear -Hlt. revert idx Hlt. induction data as [|d l IHl]; intros idx H; [cbn in H; lia|].
             destruct idx; [reflexivity|]. cbn [skipn nth] in *. apply IHl. cbn in H. lia.
          -- intros j w l E. destruct j as [|j]; cbn [app nth_error] in E.
             ++ injection E as <- <-. apply eq_iff_eq_true. rewrite !Nat.eqb_eq. lia.
             ++ rewrite (I3 j w l E). f_equal. lia.
        * destruct (IH idx H) as (I1 & I2 & I3). split; [exact I1|]. split; [exact I2|exact I3].
      + destruct (IH idx H) as (I1 & I2 & I3). split; [exact I1|]. split; [exact I2|exact I3].
  Qed.

  Lemma burst_once_law rds :
    let t := trace (burst_step false x data) 0 rds in
    exists rest, data = map fst (burst_sent t) ++ rest /\
      (forall j w l, nth_error (burst_sent t) j = Some (w, l) -> l = (j + 1 =? n)) /\
      (forall rd, b_vld (snd (burst_step false x data (final (burst_step false x data) 0 rds) rd)) = true <-> rest <> []).
  Proof.
    intros t. destruct (burst_once 0 rds ltac:(lia)) as (H1 & H2 & H3). eexists. split; [symmetry; exact H2|]. split; [exact H3|].
    intros rd. cbn [burst_step snd b_vld]. rewrite Nat.ltb_lt. set (f := final _ _ _) in *. split.
    - intros Hf E. apply (f_equal (@length A)) in E. rewrite skipn_length in E. cbn in E. lia.
    - intros E. destruct (Nat.lt_ge_cases f n) as [?|Hge]; [assumption|]. now rewrite skipn_all2 in E by exact Hge.
  Qed.

  (** REPEAT: the state after [m] sent words *)
  Lemma burst_rep idx rds m : idx <= n -> idx mod n = m mod n ->
    let t := trace (burst_step true x data) idx rds in
    forall j, j < length (burst_sent t) ->
      nth_error (map fst (burst_sent t)) j = nth_error data ((m + j) mod n) /\
      forall w l, nth_error (burst_sent t) j = Some (w, l) -> l = ((m + j + 1) mod n =? 0).
  Proof.
    revert idx m. induction rds as [|rd rds IH]; intros idx m H Hm t j Hj; [cbn in Hj; lia|].
    subst t. rewrite trace_cons in *. rewrite burst_sent_cons in *. cbn [fst snd] in *.
    assert (Hn0 : n <> 0) by (destruct data; [congruence|discriminate]).
    assert (Hs : fst (burst_step true x data idx rd) = if rd then if idx <? n then idx + 1 else 0 else idx).
    { unfold burst_step. cbn [fst]. destruct rd; [|reflexivity]. destruct (Nat.ltb_spec idx n); [now apply burst_cnt|reflexivity]. }
    assert (Ho : snd (burst_step true x data idx rd) = mk_bo (idx <? n) (nth idx data x) (idx =? n - 1)) by reflexivity.
    rewrite Hs, Ho in *. cbn [b_vld b_data b_last] in *.
    destruct rd; cbn [andb] in *.
    - destruct (Nat.ltb_spec idx n) as [Hlt|Hge]; cbn [app map nth_error fst] in *.
      + destruct j as [|j]; cbn [nth_error length] in *.
        * assert (Em : m mod n = idx) by (rewrite <- Hm; now apply Nat.mod_small).
          rewrite Nat.add_0_r, Em. split; [symmetry; now apply nth_error_nth'|].
          intros w l E. injection E as <- <-. rewrite Nat.add_mod, Em by exact Hn0. apply eq_iff_eq_true. rewrite !Nat.eqb_eq.
          rewrite Nat.add_mod_idemp_r by exact Hn0. destruct (Nat.eq_dec (idx + 1) n) as [E|E].
          -- rewrite E, Nat.mod_same by exact Hn0. lia.
          -- rewrite Nat.mod_small by lia. lia.
        * destruct (IH (idx + 1) (m + 1) ltac:(lia)) with (j := j) as (I1 & I2); [|lia|].
          -- rewrite (Nat.add_mod idx), (Nat.add_mod m), Hm by exact Hn0. reflexivity.
          -- replace (m + S j) with (m + 1 + j) by lia. now split.
      + apply (IH 0 m); [lia| |exact Hj]. rewrite <- Hm. assert (E : idx = n) by lia. rewrite E.
        rewrite Nat.mod_same, Nat.mod_0_l by exact Hn0. reflexivity.
    - now apply (IH idx m).
  Qed.
  Lemma burst_rep_law rds :
    let t := trace (burst_step true x data) 0 rds in
    forall j, j < length (burst_sent t) ->
      nth_error (map fst (burst_sent t)) j = nth_error data (j mod n) /\
      forall w l, nth_error (burst_sent t) j = Some (w, l) -> l = ((j + 1) mod n =? 0).
  Proof. intros t j Hj. exact (burst_rep 0 rds 0 ltac:(lia) eq_refl j Hj). Qed.
End Burst.

(** after the first round the REPEAT burst offers nothing until ready comes *)
Lemma burst_stuck rds : Forall (fun r => r = false) rds ->
  Forall (fun o => b_vld o = false) (outs (burst_step true 0 [5]) (final (burst_step true 0 [5]) 0 [true]) rds).
Proof.
  change (final (burst_step true 0 [5]) 0 [true]) with 1. induction rds as [|r rds IH]; intros H; [constructor|].
  apply Forall_cons_iff in H as [-> H]. rewrite outs_cons. constructor; [reflexivity|]. exact (IH H).
Qed.
