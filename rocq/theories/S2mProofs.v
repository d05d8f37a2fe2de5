From Verif Require Import Base BaseFacts S2mModel S2mSpec.

Section P.
  Context {D : Type} (AW BYTES LEN MAX : nat) (HL : 1 <= LEN) (HM : 2 <= MAX) (HM2 : MAX < 256).
  Notation step := (@s2m_step D AW BYTES LEN MAX).
  Notation K := (bursts LEN MAX).
  Notation burst := (burst AW BYTES LEN MAX).

  Lemma k_last k : k < K -> k * MAX < LEN.
  Proof. unfold bursts. intros H. nia. Qed.
  Lemma k_more k : k * MAX < LEN -> k < K.
  Proof. unfold bursts. intros H. apply Nat.div_le_lower_bound; nia. Qed.

  (** words which remain to be sent *)
  Definition inv (b : nat) (s : s2m) (rest : list event) : Prop :=
    s_base s < 2 ^ AW /\
    match s_st s with
    | fullIdle => rest = []
    | writeAddr => exists k, k < K /\ s_rem s = LEN - k * MAX /\ s_addr s = (b + k * MAX * BYTES) mod 2 ^ AW /\ rest = flat_map (burst b) (seq k (K - k))
    | writeData => exists k r, k < K /\ s_rem s = LEN - (k + 1) * MAX /\ (k + 1 < K -> s_addr s = (b + (k + 1) * MAX * BYTES) mod 2 ^ AW) /\
        s_cur s = r + 2 /\ r + 2 < 256 /\ rest = repeat (W false) (r + 1) ++ W true :: flat_map (burst b) (seq (k + 1) (K - (k + 1)))
    | writeDataLast => exists k, k < K /\ s_rem s = LEN - (k + 1) * MAX /\ (k + 1 < K -> s_addr s = (b + (k + 1) * MAX * BYTES) mod 2 ^ AW) /\
        rest = W true :: flat_map (burst b) (seq (k + 1) (K - (k + 1)))
    end.

  Definition ev (s : s2m) (i : s2m_in D) : list event := events [(i, snd (step s i))].
  Lemma seq_head k : k < K -> seq k (K - k) = k :: seq (k + 1) (K - (k + 1)).
  Proof. intros H. replace (K - k) with (S (K - (k + 1))) by lia. cbn [seq]. rewrite Nat.add_1_r. reflexivity. Qed.
  Lemma lw_ge : LEN < 2 ^ LW LEN.
  Proof.
    unfold LW. destruct (Nat.eqb_spec LEN 0); [lia|]. pose proof (Nat.log2_spec LEN ltac:(lia)) as [_ H].
    rewrite <- Nat.add_1_r in H. apply (Nat.lt_le_trans _ _ _ H). apply Nat.pow_le_mono_r; lia.
  Qed.

  Lemma inv_step b s rest i : inv b s rest ->
    (o_idle (snd (step s i)) && o_on (snd (step s i)) = false -> exists rest', rest = ev s i ++ rest' /\ inv b (fst (step s i)) rest') /\
    (o_idle (snd (step s i)) && o_on (snd (step s i)) = true -> ev s i = [] /\ rest = [] /\ inv (s_base s) (fst (step s i)) (transfer AW BYTES LEN MAX (s_base s))).
  Proof.
    intros [Hb H].
    assert (match i_base i with Some b0 => wrap AW b0 | None => s_base s end < 2 ^ AW) as Hb' by (destruct (i_base i); [apply wrap_lt|exact Hb]).
    unfold ev, events. cbn [flat_map]. unfold step. cbn [fst snd]. cbn [o_idle o_on o_awv o_wv o_addr o_len o_last o_base].
    unfold inv. cbn [s_base s_st s_addr s_rem s_cur]. unfold st_next, rem_next, addr_next, cur_next, w_ack, w_en.
    destruct (s_st s) eqn:St.
    - (* fullIdle *)
      subst rest. rewrite andb_false_r. cbn [andb app]. split.
      + intros E. rewrite E. exists []. split; [reflexivity|]. split; [exact Hb'|]. reflexivity.
      + intros E. rewrite E. split; [reflexivity|]. split; [reflexivity|]. split; [exact Hb'|].
        exists 0. assert (0 < K) by (apply k_more; lia). split; [exact H|]. split; [lia|]. split.
        * cbn [Nat.mul]. rewrite Nat.add_0_r. rewrite Nat.mod_small; [reflexivity|exact Hb].
        * rewrite Nat.sub_0_r. reflexivity.
    - (* writeAddr *)
      split; [|discriminate]. intros _. destruct H as (k & Hk & Hr & Ha & ->). rewrite andb_false_r. cbn [andb].
      destruct (i_awr i) eqn:R; cbn [andb app].
      2:{ eexists. split; [reflexivity|]. split; [exact Hb'|]. exists k. auto. }
      pose proof (k_last k Hk) as Hk'. rewrite (seq_head k Hk). cbn [flat_map]. unfold S2mSpec.burst at 1. cbn [app].
      assert ((if MAX <? s_rem s then MAX - 1 else wrap 8 (wdec (LW LEN) (s_rem s))) = size_of LEN MAX k - 1) as El.
      { unfold size_of. destruct (Nat.ltb_spec MAX (s_rem s)) as [L|L]; [rewrite Nat.min_l by lia; reflexivity|].
        rewrite wdec_pos; [|lia|pose proof lw_ge; lia]. rewrite wrap_small by (cbn; lia). rewrite Nat.min_r by lia. lia. }
      rewrite El, Ha. eexists. split; [rewrite <- app_assoc; reflexivity|]. split; [exact Hb'|].
      assert ((if MAX <? s_rem s then s_rem s - MAX else 0) = LEN - (k + 1) * MAX) as Er by (destruct (Nat.ltb_spec MAX (s_rem s)); nia).
      assert (k + 1 < K -> wrap AW ((b + k * MAX * BYTES) mod 2 ^ AW + (if MAX <? s_rem s then MAX * BYTES else s_rem s)) = (b + (k + 1) * MAX * BYTES) mod 2 ^ AW) as Ea.
      { intros H1. pose proof (k_last _ H1). destruct (Nat.ltb_spec MAX (s_rem s)); [|nia]. unfold wrap. pose proof (pow2_pos AW).
        rewrite Nat.add_mod_idemp_l by lia. f_equal. nia. }
      destruct (Nat.eqb_spec (s_rem s) 1) as [E1|E1].
      + exists k. split; [exact Hk|]. split; [exact Er|]. split; [exact Ea|].
        unfold size_of. replace (Nat.min MAX (LEN - k * MAX) - 1) with 0 by lia. reflexivity.
      + exists k, (size_of LEN MAX k - 2). assert (2 <= size_of LEN MAX k) as S2 by (unfold size_of; lia).
        split; [exact Hk|]. split; [exact Er|]. split; [exact Ea|].
        assert ((if MAX <? s_rem s then MAX else wrap 8 (s_rem s)) = size_of LEN MAX k) as Ec.
        { unfold size_of. destruct (Nat.ltb_spec MAX (s_rem s)) as [L|L]; [lia|]. rewrite wrap_small by (cbn; lia). lia. }
        rewrite Ec. split; [lia|]. split; [unfold size_of in *; lia|].
        replace (size_of LEN MAX k - 2 + 1) with (size_of LEN MAX k - 1) by lia. reflexivity.
    - (* writeData *)
      split; [|discriminate]. intros _. destruct H as (k & r & Hk & Hr & Ha & Hc & Hc2 & ->). cbn [andb app]. rewrite andb_true_r.
      destruct (i_vld i && i_wr i) eqn:V; cbn [app andb].
      2:{ eexists. split; [reflexivity|]. split; [exact Hb'|]. exists k, r. auto 10. }
      replace (repeat (W false) (r + 1)) with (W false :: repeat (W false) r) by (rewrite (Nat.add_comm r); reflexivity). cbn [app]. eexists. split; [reflexivity|]. split; [exact Hb'|]. rewrite Hc. destruct r as [|r].
      + cbn [Nat.add Nat.eqb]. exists k. auto.
      + replace (S r + 2 =? 2) with false by (symmetry; apply Nat.eqb_neq; lia). exists k, r. split; [exact Hk|]. split; [exact Hr|]. split; [exact Ha|].
        split; [rewrite wdec_pos by (cbn; lia); lia|]. split; [lia|]. rewrite (Nat.add_comm r 1). reflexivity.
    - (* writeDataLast *)
      split; [|discriminate]. intros _. destruct H as (k & Hk & Hr & Ha & ->). cbn [andb app]. rewrite andb_true_r.
      destruct (i_vld i && i_wr i) eqn:V; cbn [app andb].
      2:{ eexists. split; [reflexivity|]. split; [exact Hb'|]. exists k. auto 10. }
      eexists. split; [reflexivity|]. split; [exact Hb'|].
      destruct (Nat.eqb_spec (s_rem s) 0) as [E|E]; cbn [negb].
      + replace (K - (k + 1)) with 0; [reflexivity|]. destruct (Nat.lt_ge_cases (k + 1) K) as [L|L]; [|lia]. apply k_last in L. lia.
      + assert (k + 1 < K) as L by (apply k_more; lia). exists (k + 1). auto.
  Qed.

  Lemma events_snoc (t : list (s2m_in D * s2m_out D)) x : events (t ++ [x]) = events t ++ events [x].
  Proof. unfold events. apply flat_map_app. Qed.
  Lemma starts_snoc (t : list (s2m_in D * s2m_out D)) x : starts (t ++ [x]) = starts t ++ starts [x].
  Proof. unfold starts. apply flat_map_app. Qed.

  Lemma run_inv a c is : exists b rest, inv b (final step (s2m_init LEN a c) is) rest /\
    flat_map (transfer AW BYTES LEN MAX) (starts (trace step (s2m_init LEN a c) is)) = events (trace step (s2m_init LEN a c) is) ++ rest.
  Proof.
    induction is as [|i is IH] using rev_ind.
    - exists 0, []. split; [|reflexivity]. split; [apply pow2_pos|]. reflexivity.
    - destruct IH as (b & rest & I & E). rewrite final_snoc, trace_snoc, events_snoc, starts_snoc, flat_map_app, E.
      set (s := final step (s2m_init LEN a c) is) in *. fold (ev s i). destruct (inv_step b s rest i I) as [I1 I2].
      unfold starts at 1. cbn [flat_map]. cbn [snd fst]. rewrite app_nil_r.
      destruct (o_idle (snd (step s i)) && o_on (snd (step s i))) eqn:Q.
      + destruct (I2 eq_refl) as (-> & -> & I3). exists (s_base s), (transfer AW BYTES LEN MAX (s_base s)). split; [exact I3|].
        cbn [flat_map]. rewrite !app_nil_r. reflexivity.
      + destruct (I1 eq_refl) as (rest' & -> & I3). exists b, rest'. split; [exact I3|]. cbn [flat_map]. rewrite app_nil_r, app_assoc. reflexivity.
  Qed.

  Lemma idle_rest b s rest i : inv b s rest -> o_idle (snd (step s i)) = true -> rest = [].
  Proof. intros [_ H]. unfold step. cbn [snd o_idle]. destruct (s_st s); try discriminate. auto. Qed.
  (** something happens in each busy cycle *)
  Lemma progress s i : i_awr i = true -> i_wr i = true -> i_vld i = true -> o_idle (snd (step s i)) = false -> length (ev s i) = 1.
  Proof.
    intros R1 R2 R3. unfold ev, events, step. cbn [flat_map snd fst o_idle o_awv o_wv o_addr o_len o_last]. unfold w_en. rewrite R1, R2, R3.
    destruct (s_st s); try discriminate; reflexivity.
  Qed.
End P.

Lemma s2m_transfers : forall (D : Type) AW BYTES LEN MAX, 1 <= LEN -> 2 <= MAX < 256 -> forall a c (is : list (s2m_in D)) (i : s2m_in D),
  let t := trace (s2m_step AW BYTES LEN MAX) (s2m_init LEN a c) is in
  let o := snd (s2m_step AW BYTES LEN MAX (final (s2m_step AW BYTES LEN MAX) (s2m_init LEN a c) is) i) in
  exists rest, flat_map (transfer AW BYTES LEN MAX) (starts t) = events t ++ rest /\ (o_idle o = true -> rest = []) /\
    (o_idle o = false -> i_awr i = true -> i_wr i = true -> i_vld i = true -> length (events [(i, o)]) = 1).
Proof.
  intros D AW BYTES LEN MAX HL HM a c is i t o. destruct (run_inv AW BYTES LEN MAX HL (proj1 HM) (proj2 HM) a c is) as (b & rest & I & E).
  exists rest. split; [exact E|]. split; [intros H; eapply idle_rest; eassumption|]. intros H R1 R2 R3. apply progress; assumption.
Qed.
Lemma s2m_data : forall (D : Type) AW BYTES LEN MAX s (is : list (s2m_in D)),
  let t := trace (s2m_step AW BYTES LEN MAX) s is in written t = taken t.
Proof.
  intros D AW BYTES LEN MAX s is. cbv zeta. revert s. induction is as [|i is IH]; intros s; [reflexivity|]. rewrite trace_cons.
  unfold written, taken in *. cbn [flat_map fst snd]. rewrite IH. f_equal. unfold s2m_step. cbn [snd o_wv o_rd o_data].
  destruct (i_vld i), (w_en s), (i_wr i); reflexivity.
Qed.
(** registers *)
Lemma s2m_regs : forall (D : Type) AW BYTES LEN MAX a c (is : list (s2m_in D)) (i : s2m_in D),
  let o := snd (s2m_step AW BYTES LEN MAX (final (s2m_step AW BYTES LEN MAX) (s2m_init LEN a c) is) i) in
  o_on o = last_wr i_ctl false is /\ o_base o = last_wr (fun x => option_map (wrap AW) (i_base x)) 0 is.
Proof.
  intros D AW BYTES LEN MAX a c is i. cbn [s2m_step snd o_on o_base]. induction is as [|x is IH] using rev_ind; [split; reflexivity|].
  rewrite final_snoc. unfold last_wr in *. rewrite !fold_left_app. cbn [fold_left]. cbn [s2m_step fst s_on s_base].
  destruct IH as [<- <-]. split; [reflexivity|]. destruct (i_base x); reflexivity.
Qed.
(** held until taken *)
Lemma s2m_held : forall (D : Type) AW BYTES LEN MAX s (i j : s2m_in D),
  let o := snd (s2m_step AW BYTES LEN MAX s i) in let o' := snd (s2m_step AW BYTES LEN MAX (fst (s2m_step AW BYTES LEN MAX s i)) j) in
  (o_awv o = true -> i_awr i = false -> o_awv o' = true /\ o_addr o' = o_addr o /\ o_len o' = o_len o) /\
  (o_wv o = true -> i_wr i = false -> i_vld j = true -> i_data j = i_data i -> o_wv o' = true /\ o_data o' = o_data o /\ o_last o' = o_last o).
Proof.
  intros D AW BYTES LEN MAX s i j. cbv zeta. unfold s2m_step. cbn [fst snd o_awv o_addr o_len o_wv o_data o_last].
  unfold st_next, rem_next, addr_next, w_en, w_ack, w_en. cbn [s_st s_addr s_rem s_cur]. split.
  - destruct (s_st s) eqn:S; try discriminate. intros _ ->. cbn [s_st s_addr s_rem]. auto.
  - intros V -> Hv ->. rewrite !andb_false_r. cbn [andb]. destruct (s_st s) eqn:S; rewrite ?andb_false_r in V; try discriminate; rewrite Hv; auto.
Qed.

(** 4 KiB: bursts of a transfer to an aligned base *)
Lemma s2m_4k : forall AW BYTES LEN MAX b k, 1 <= MAX -> 1 <= BYTES -> 12 <= AW -> Nat.divide (MAX * BYTES) 4096 -> Nat.divide (MAX * BYTES) b ->
  k < bursts LEN MAX -> forall j, j < size_of LEN MAX k * BYTES ->
  ((b + k * MAX * BYTES) mod 2 ^ AW + j) / 4096 = ((b + k * MAX * BYTES) mod 2 ^ AW) / 4096.
Proof.
  intros AW BYTES LEN MAX b k HM HB HA D1 D2 Hk j Hj.
  set (P := MAX * BYTES) in *. assert (1 <= P) as HP by (unfold P; nia). assert (j < P) as Hj' by (unfold P, size_of in *; nia).
  replace (k * MAX * BYTES) with (k * P) by (unfold P; lia).
  assert (Nat.divide P ((b + k * P) mod 2 ^ AW)) as DA.
  { assert (Nat.divide P (2 ^ AW)) as D3.
    { replace AW with (12 + (AW - 12)) by lia. rewrite Nat.pow_add_r. apply Nat.divide_mul_l. exact D1. }
    assert (Nat.divide P (b + k * P)) as D4 by (apply Nat.divide_add_r; [exact D2|apply Nat.divide_factor_r]).
    pose proof (Nat.div_mod (b + k * P) (2 ^ AW) ltac:(pose proof (pow2_pos AW); lia)) as Q.
    apply (Nat.divide_add_cancel_r P (2 ^ AW * ((b + k * P) / 2 ^ AW))); [apply Nat.divide_mul_l; exact D3|]. rewrite <- Q. exact D4. }
  destruct DA as [q ->]. destruct D1 as [n Hn].
  assert (n <> 0) by (intros ->; discriminate).
  change 4096 with (4096). rewrite Hn. rewrite (Nat.mul_comm n P), <- !Nat.div_div by lia. rewrite Nat.div_mul by lia.
  rewrite Nat.div_add_l by lia. rewrite (Nat.div_small j P) by exact Hj'. rewrite Nat.add_0_r. reflexivity.
Qed.

(** control register *)
Lemma control_bits BYTES on idle : 1 <= BYTES ->
  Nat.testbit (control_din BYTES on idle) (8 * BYTES - 1) = on /\ Nat.testbit (control_din BYTES on idle) (8 * BYTES - 2) = idle /\
  forall n, n < 8 * BYTES - 2 -> Nat.testbit (control_din BYTES on idle) n = false.
Proof.
  intros H. unfold control_din. set (w := 8 * BYTES - 2). replace (8 * BYTES - 1) with (S w) by lia.
  replace (Nat.b2n on * 2 ^ S w + Nat.b2n idle * 2 ^ w) with ((Nat.b2n on * 2 + Nat.b2n idle) * 2 ^ w) by (cbn [Nat.pow]; lia).
  repeat split.
  - rewrite Nat.mul_pow2_bits_high by lia. replace (S w - w) with 1 by lia. destruct on, idle; reflexivity.
  - rewrite Nat.mul_pow2_bits_high by lia. rewrite Nat.sub_diag. destruct on, idle; reflexivity.
  - intros n Hn. apply Nat.mul_pow2_bits_low. lia.
Qed.
Lemma control_bad : forall BYTES, 1 <= BYTES -> exists on idle, Nat.testbit (control_din BYTES on idle) 0 <> on /\ Nat.testbit (control_din BYTES on idle) 1 <> idle.
Proof.
  intros B H. exists true, true. destruct (control_bits B true true H) as (_ & _ & Z). rewrite !Z by lia. split; discriminate.
Qed.

(** one transfer after another *)
Definition wr (b : nat) : s2m_in nat := mk_in None (Some b) false false false 0.
Definition on (b : bool) : s2m_in nat := mk_in (Some b) None false false false 0.
Definition go (d : nat) : s2m_in nat := mk_in None None true true true d.
Definition stall (d : nat) : s2m_in nat := mk_in None None false false true d.
Lemma cross_4k : forall AW, 13 <= AW -> exists is : list (s2m_in nat), In (Aw 4088 3) (events (trace (s2m_step AW 4 8 4) (s2m_init 8 0 0) is)).
Proof.
  intros AW H. exists [wr 4088; on true; go 0; go 0].
  assert (wrap AW 4088 = 4088) as E.
  { apply wrap_small. apply (Nat.lt_le_trans _ (2 ^ 13)); [apply Nat.ltb_lt; vm_compute; reflexivity|]. apply Nat.pow_le_mono_r; lia. }
  revert E. generalize 4088. intros n E.
  assert (events (trace (s2m_step AW 4 8 4) (s2m_init 8 0 0) [wr n; on true; go 0; go 0]) = [Aw (wrap AW n) 3]) as -> by (lazy -[wrap]; reflexivity).
  rewrite E. left. reflexivity.
Qed.
Definition ex_ins : list (s2m_in nat) :=
  [wr 100; on true; stall 0; stall 0; go 5; on false; go 5; stall 6; go 6; go 7; go 7; go 8; go 9; stall 9; go 9; go 10].
