From Verif Require Import Base BaseFacts StreamSpec StreamFacts BcdModel BcdSpec.
Local Open Scope N_scope.

(** * one shift of the digits *)
Definition dig (d : N) : Prop := d <= 9.

Lemma digit_cases (P : N -> Prop) : P 0 -> P 1 -> P 2 -> P 3 -> P 4 -> P 5 -> P 6 -> P 7 -> P 8 -> P 9 -> forall d, dig d -> P d.
Proof.
  intros. unfold dig in *.
  assert (d = 0 \/ d = 1 \/ d = 2 \/ d = 3 \/ d = 4 \/ d = 5 \/ d = 6 \/ d = 7 \/ d = 8 \/ d = 9) as C by lia.
  decompose [or] C; subst; assumption.
Qed.

Definition carry (d : N) : N := if 5 <=? d then 1 else 0.

Lemma shift_digit d c : dig d -> c <= 1 ->
  N.lor (N.shiftl (dabble d) 1 mod 16) c = 2 * d + c - 10 * carry d /\ N.shiftr (dabble d) 3 = carry d.
Proof.
  intros Hd Hc. assert (c = 0 \/ c = 1) as [-> | ->] by lia; revert d Hd; apply digit_cases; split; reflexivity.
Qed.
Lemma carry_le d : carry d <= 1.
Proof. unfold carry. destruct (5 <=? d); lia. Qed.

Lemma shift_spec ds : forall prev, Forall dig ds -> N.shiftr prev 3 <= 1 ->
  exists co, co <= 1 /\ dec_value (bcd_shift prev ds) + co * 10 ^ N.of_nat (length ds) = 2 * dec_value ds + N.shiftr prev 3 /\
    Forall dig (bcd_shift prev ds) /\ length (bcd_shift prev ds) = length ds.
Proof.
  induction ds as [|d ds IH]; intros prev Hd Hp.
  - exists (N.shiftr prev 3). simpl. repeat split; [exact Hp|lia|constructor].
  - inversion_clear Hd as [|? ? Hd0 Hds]. destruct (shift_digit d (N.shiftr prev 3) Hd0 Hp) as [E1 E2].
    pose proof (carry_le d) as Hcl. destruct (IH (dabble d) Hds) as (co & Hco & Ev & Hf & Hl); [rewrite E2; exact Hcl|].
    exists co. cbn [bcd_shift dec_value length]. rewrite E1. rewrite E2 in Ev.
    split; [exact Hco|]. split; [|split].
    + rewrite Nat2N.inj_succ, N.pow_succ_r by lia.
      assert (10 * carry d <= 2 * d) by (unfold carry; destruct (N.leb_spec 5 d); lia).
      replace (co * (10 * 10 ^ N.of_nat (length ds))) with (10 * (co * 10 ^ N.of_nat (length ds))) by lia. lia.
    + constructor; [|exact Hf]. unfold dig in *. unfold carry. destruct (N.leb_spec 5 d); lia.
    + f_equal. exact Hl.
Qed.

Lemma dec_bound ds : Forall dig ds -> dec_value ds < 10 ^ N.of_nat (length ds).
Proof.
  induction ds as [|d ds IH]; intros H; [reflexivity|]. inversion_clear H as [|? ? H0 Hds]. specialize (IH Hds). unfold dig in H0.
  cbn [dec_value length]. rewrite Nat2N.inj_succ, N.pow_succ_r by lia. lia.
Qed.

Lemma dec_digits ds : Forall dig ds -> decimal (length ds) (dec_value ds) ds.
Proof.
  intros H. split; [reflexivity|]. induction H as [|d ds Hd Hds IH]; intros i Hi; [simpl in Hi; lia|].
  cbn [dec_value length] in *. unfold dig in Hd. destruct i as [|i].
  - simpl N.of_nat. rewrite N.pow_0_r, N.div_1_r. cbn [nth]. rewrite N.add_comm, N.mul_comm, N.add_comm.
    rewrite N.mod_add by lia. rewrite N.mod_small by lia. reflexivity.
  - cbn [nth]. rewrite IH by lia. rewrite Nat2N.inj_succ, N.pow_succ_r by lia.
    rewrite <- N.div_div by (try apply N.pow_nonzero; lia). f_equal. f_equal.
    rewrite N.add_comm, N.mul_comm. rewrite N.div_add_l by lia. rewrite (N.div_small d) by lia. lia.
Qed.

(** * BinToBcd *)
Section B2B.
  Variables (W D : nat).
  Hypothesis HW : (1 <= W)%nat.
  Hypothesis HD : 2 ^ N.of_nat W <= 10 ^ N.of_nat D.

  (** in the middle of the conversion of [x] *)
  Definition conv_ok (x : N) (k : nat) (s : b2b) : Prop :=
    (k <= W)%nat /\ x < 2 ^ N.of_nat W /\ length (b_bcd s) = D /\ Forall dig (b_bcd s) /\
    dec_value (b_bcd s) = N.shiftr x (N.of_nat (W - k)) /\ b_bin s = N.shiftl x (N.of_nat k) mod 2 ^ N.of_nat W.

  (** state and the word being converted *)
  Definition b2b_inv (s : b2b) (p : option N) : Prop :=
    length (b_bcd s) = D /\
    match b_st s, p with
    | BIdle, None => b_cnt s = 0%nat \/ True
    | BBusy, Some x => (b_cnt s < W)%nat /\ conv_ok x (b_cnt s) s
    | BFin, Some x => conv_ok x W s
    | _, _ => False
    end.

  Definition b2b_pend (p : option N) (i : bcd_in N) (o : bcd_out (list N)) : option N :=
    if bi_vld i && bo_rd o then Some (bi_data i) else if bi_rd i && bo_vld o then None else p.

  Lemma b2b_cnt_wrap k : (k + 1 < W)%nat -> winc (log2ceil W) k = (k + 1)%nat.
  Proof. intros H. apply winc_small. pose proof (log2ceil_ge W). lia. Qed.

  Lemma conv_step x k s i : b_st s = BBusy -> b_cnt s = k -> (k < W)%nat -> conv_ok x k s ->
    conv_ok x (S k) (fst (b2b_step W s i)).
  Proof.
    intros Est Ek Hk (_ & Hx & Hl & Hd & Hv & Hb). unfold b2b_step. rewrite Est. cbn [fst].
    unfold conv_ok. cbn [b_bcd b_bin].
    set (top := N.b2n (N.testbit (b_bin s) (N.of_nat (W - 1)))).
    assert (N.testbit (b_bin s) (N.of_nat (W - 1)) = N.testbit x (N.of_nat (W - S k))) as Ht.
    { rewrite Hb, N.mod_pow2_bits_low by lia. rewrite N.shiftl_spec_high by lia. f_equal. lia. }
    assert (N.shiftr (8 * top) 3 = top) as Hsh.
    { unfold top. destruct (N.testbit (b_bin s) _); reflexivity. }
    destruct (shift_spec (b_bcd s) (8 * top) Hd) as (co & Hco & Ev & Hf & Hl').
    { rewrite Hsh. unfold top. destruct (N.testbit _ _); cbn [N.b2n]; lia. }
    rewrite Hsh, Hl, Hv in Ev.
    assert (2 * N.shiftr x (N.of_nat (W - k)) + top = N.shiftr x (N.of_nat (W - S k))) as Edbl.
    { unfold top. rewrite Ht. rewrite (N.div2_odd (N.shiftr x (N.of_nat (W - S k)))).
      rewrite N.div2_spec, N.shiftr_shiftr. rewrite <- N.bit0_odd, N.shiftr_spec by lia. rewrite N.add_0_l.
      do 3 f_equal. lia. }
    rewrite Edbl in Ev.
    assert (N.shiftr x (N.of_nat (W - S k)) < 2 ^ N.of_nat W) as Hlt.
    { rewrite N.shiftr_div_pow2. apply N.le_lt_trans with x; [|exact Hx]. apply N.div_le_upper_bound; [apply N.pow_nonzero; lia|].
      rewrite <- (N.mul_1_l x) at 1. apply N.mul_le_mono_r. pose proof (N.pow_nonzero 2 (N.of_nat (W - S k)) ltac:(lia)). lia. }
    assert (co = 0) as ->.
    { assert (co = 0 \/ co = 1) as [|E] by lia; [assumption|]. subst co. lia. }
    split; [lia|]. split; [exact Hx|]. split; [lia|]. split; [exact Hf|]. split; [lia|].
    rewrite Hb, Nat2N.inj_succ. rewrite !N.shiftl_mul_pow2, N.pow_succ_r by lia.
    rewrite N.mul_mod_idemp_r by (apply N.pow_nonzero; lia). f_equal. lia.
  Qed.

  Lemma b2b_inv_step s p i : b2b_inv s p -> (bi_vld i = true -> bi_data i < 2 ^ N.of_nat W) ->
    b2b_inv (fst (b2b_step W s i)) (b2b_pend p i (snd (b2b_step W s i))).
  Proof.
    intros [Hl Hinv] Hi. destruct (b_st s) eqn:Est.
    - destruct p as [x|]; [contradiction|]. unfold b2b_step, b2b_pend. rewrite Est. cbn [fst snd bo_rd bo_vld].
      rewrite !andb_true_r, andb_false_r. destruct (bi_vld i) eqn:Ev.
      + split; cbn [b_bcd b_st b_cnt]; [rewrite map_length; exact Hl|]. split; [lia|].
        unfold conv_ok. cbn [b_bcd b_bin].
        assert (map (fun _ : N => 0) (b_bcd s) = repeat 0 D) as ->.
        { rewrite <- Hl. clear. induction (b_bcd s) as [|a l IH]; [reflexivity|]. simpl. f_equal. exact IH. }
        split; [lia|]. split; [apply Hi; reflexivity|]. split; [apply repeat_length|]. split; [|split].
        * apply Forall_forall. intros y Hy. apply repeat_spec in Hy. subst. unfold dig. lia.
        * rewrite Nat.sub_0_r. rewrite N.shiftr_div_pow2, N.div_small by (apply Hi; reflexivity).
          clear. induction D; [reflexivity|]. cbn [repeat dec_value]. lia.
        * rewrite N.shiftl_0_r, N.mod_small by (apply Hi; reflexivity). reflexivity.
      + split; cbn [b_bcd b_st]; [rewrite map_length; exact Hl|right; exact I].
    - destruct p as [x|]; [|contradiction]. destruct Hinv as [Hk Hc].
      pose proof (conv_step x (b_cnt s) s i Est eq_refl Hk Hc) as Hc'.
      assert (b2b_pend (Some x) i (snd (b2b_step W s i)) = Some x) as ->.
      { unfold b2b_step, b2b_pend. rewrite Est. cbn [snd bo_rd bo_vld]. rewrite !andb_false_r. reflexivity. }
      assert (b_st (fst (b2b_step W s i)) = if Nat.eqb (b_cnt s) (W - 1) then BFin else BBusy) as Es'
        by (unfold b2b_step; rewrite Est; reflexivity).
      assert (b_cnt (fst (b2b_step W s i)) = winc (log2ceil W) (b_cnt s)) as Ec'
        by (unfold b2b_step; rewrite Est; reflexivity).
      set (s' := fst (b2b_step W s i)) in *. clearbody s'.
      split; [apply Hc'|]. rewrite Es'. destruct (Nat.eqb_spec (b_cnt s) (W - 1)) as [E|Nn].
      + replace W with (S (b_cnt s)) at 1 by lia. exact Hc'.
      + rewrite Ec', b2b_cnt_wrap, Nat.add_1_r by lia. split; [lia|exact Hc'].
    - destruct p as [x|]; [|contradiction]. unfold b2b_step, b2b_pend. rewrite Est. cbn [fst snd bo_rd bo_vld].
      rewrite andb_false_r, andb_true_r. destruct (bi_rd i); split; cbn [b_bcd b_st]; try exact Hl; [right; exact I|].
      exact Hinv.
  Qed.

  Lemma conv_fin x s : conv_ok x W s -> decimal D x (b_bcd s).
  Proof.
    intros (_ & _ & Hl & Hd & Hv & _). rewrite Nat.sub_diag, N.shiftr_0_r in Hv. rewrite <- Hl, <- Hv.
    apply dec_digits. exact Hd.
  Qed.
End B2B.

(** * one result per word, from an invariant which knows the word being converted *)
Section OneToOne.
  Context {S A B : Type} (step : S -> bcd_in A -> S * bcd_out B) (R : A -> B -> Prop) (ok : A -> Prop) (Inv : S -> option A -> Prop).
  Definition nextp (p : option A) (i : bcd_in A) (o : bcd_out B) : option A :=
    if bi_vld i && bo_rd o then Some (bi_data i) else if bo_vld o && bi_rd i then None else p.
  Hypothesis Hstep : forall s p i, Inv s p -> (bi_vld i = true -> ok (bi_data i)) ->
    let o := snd (step s i) in
    Inv (fst (step s i)) (nextp p i o) /\
    (bo_vld o = true -> exists x, p = Some x /\ R x (bo_data o)) /\
    (bo_rd o = true -> p = None \/ (bo_vld o = true /\ bi_rd i = true)).
  Definition olist (p : option A) : list A := match p with Some x => [x] | None => [] end.

  Lemma one_run s is : Inv s None -> (forall i, In i is -> bi_vld i = true -> ok (bi_data i)) ->
    exists p fin, Inv (final step s is) p /\
      accepted (map bcd_obs (trace step s is)) = fin ++ olist p /\
      Forall2 R fin (delivered (map bcd_obs (trace step s is))).
  Proof.
    intros H0. induction is as [|i is IH] using rev_ind; intros Hok.
    - exists None, []. split; [exact H0|]. split; [reflexivity|constructor].
    - destruct IH as (p & fin & HI & Ea & Hf); [intros j Hj; apply Hok; apply in_or_app; left; exact Hj|].
      rewrite final_snoc, trace_snoc, map_app, accepted_app, delivered_app, Ea.
      set (st := final step s is) in *. clearbody st.
      destruct (Hstep st p i HI) as (HI' & Hv & Hr); [apply Hok; apply in_or_app; right; left; reflexivity|].
      destruct (step st i) as [s' o] eqn:Es. cbn [fst snd] in *.
      cbn [map accepted delivered bcd_obs in_vld in_rd in_data out_vld out_rd out_data fst snd]. 
      unfold nextp in HI'. destruct (bo_vld o && bi_rd i) eqn:Ed.
      + apply andb_prop in Ed. destruct Ed as [E1 E2]. destruct (Hv E1) as (x & -> & HR).
        exists (if bi_vld i && bo_rd o then Some (bi_data i) else None), (fin ++ [x]). split; [exact HI'|]. split.
        * cbn [olist]. destruct (bi_vld i && bo_rd o); cbn [olist]; rewrite <- ?app_assoc, ?app_nil_r; reflexivity.
        * apply Forall2_app; [exact Hf|]. constructor; [exact HR|constructor].
      + exists (if bi_vld i && bo_rd o then Some (bi_data i) else p), fin. split; [exact HI'|]. split; [|rewrite app_nil_r; exact Hf].
        destruct (bi_vld i && bo_rd o) eqn:Ea'; [|rewrite app_nil_r; reflexivity].
        apply andb_prop in Ea'. destruct (Hr (proj2 Ea')) as [-> | [E1 E2]]; [|rewrite E1, E2 in Ed; discriminate].
        cbn [olist]. rewrite app_nil_r. reflexivity.
  Qed.

  Lemma one_law s is : Inv s None -> (forall i, In i is -> bi_vld i = true -> ok (bi_data i)) ->
    one_to_one R (map bcd_obs (trace step s is)).
  Proof.
    intros H0 Hok. destruct (one_run s is H0 Hok) as (p & fin & _ & Ea & Hf). exists fin, (olist p).
    split; [exact Ea|]. split; [destruct p; simpl; lia|exact Hf].
  Qed.

  Lemma one_inv s is : Inv s None -> (forall i, In i is -> bi_vld i = true -> ok (bi_data i)) -> exists p, Inv (final step s is) p.
  Proof. intros H0 Hok. destruct (one_run s is H0 Hok) as (p & _ & HI & _). exists p. exact HI. Qed.
End OneToOne.

(** ** BinToBcd *)
Lemma b2b_hstep W D : (1 <= W)%nat -> 2 ^ N.of_nat W <= 10 ^ N.of_nat D ->
  forall s p i, b2b_inv W D s p -> (bi_vld i = true -> bi_data i < 2 ^ N.of_nat W) ->
    let o := snd (b2b_step W s i) in
    b2b_inv W D (fst (b2b_step W s i)) (nextp p i o) /\
    (bo_vld o = true -> exists x, p = Some x /\ decimal D x (bo_data o)) /\
    (bo_rd o = true -> p = None \/ (bo_vld o = true /\ bi_rd i = true)).
Proof.
  intros HW HD s p i HI Hi o. split; [|split].
  - pose proof (b2b_inv_step W D HW HD s p i HI Hi) as H. unfold b2b_pend in H. unfold nextp. rewrite (andb_comm (bo_vld _)). exact H.
  - intros Hv. unfold o in *. unfold b2b_step in *. cbn [snd bo_vld bo_data] in *. destruct HI as [Hl HI].
    destruct (b_st s) eqn:Est; try discriminate. destruct p as [x|]; [|contradiction]. exists x. split; [reflexivity|].
    apply (conv_fin W D). exact HI.
  - intros Hr. left. unfold o in *. unfold b2b_step in *. cbn [snd bo_rd] in *. destruct HI as [Hl HI].
    destruct (b_st s); try discriminate. destruct p; [contradiction|reflexivity].
Qed.

Lemma b2b_start W D bin0 : b2b_inv W D (b2b_init D bin0) None.
Proof. split; [apply repeat_length|]. right. exact I. Qed.

Lemma c27 : forall (W D : nat) (bin0 : N) (is : list (bcd_in N)),
  (1 <= W)%nat -> 2 ^ N.of_nat W <= 10 ^ N.of_nat D ->
  (forall i, In i is -> bi_vld i = true -> bi_data i < 2 ^ N.of_nat W) ->
  let t := map bcd_obs (trace (b2b_step W) (b2b_init D bin0) is) in
  one_to_one (decimal D) t /\ out_stable t.
Proof.
  intros W D bin0 is HW HD Hok t. split.
  - apply (one_law (b2b_step W) (decimal D) (fun x => x < 2 ^ N.of_nat W) (b2b_inv W D) (b2b_hstep W D HW HD) _ _ (b2b_start W D bin0) Hok).
  - unfold t. clear t Hok. generalize (b2b_init D bin0). intros s. revert s. induction is as [|i is IH]; intros s; [exact Logic.I|].
    rewrite trace_cons. cbn [map]. destruct is as [|j is]; [exact Logic.I|]. specialize (IH (fst (b2b_step W s i))).
    rewrite trace_cons in IH |- *. cbn [map] in IH |- *. split; [|exact IH].
    intros Hv Hr. cbn [bcd_obs out_vld out_rd out_data fst snd] in *.
    unfold b2b_step in *. cbn [fst snd bo_vld bo_data b_st b_bcd] in *. destruct (b_st s); try discriminate.
    rewrite Hr. split; reflexivity.
Qed.

(** latency: the result of a word accepted in cycle 0 is offered for the first time in cycle W+1 *)
Lemma b2b_busy W D (HW : (1 <= W)%nat) (HD : 2 ^ N.of_nat W <= 10 ^ N.of_nat D) x : forall js s k,
  b_st s = BBusy -> b_cnt s = k -> (k < W)%nat -> conv_ok W D x k s -> (length js = W - k)%nat ->
  Forall (fun c => out_vld c = false /\ in_rd c = false) (map bcd_obs (trace (b2b_step W) s js)) /\
  b_st (final (b2b_step W) s js) = BFin /\ conv_ok W D x W (final (b2b_step W) s js).
Proof.
  induction js as [|j js IH]; intros s k Es Ec Hk Hc Hl; [simpl in Hl; lia|].
  rewrite trace_cons, final_cons. cbn [map].
  pose proof (conv_step W D HW HD x k s j Es Ec Hk Hc) as Hc'.
  assert (b_st (fst (b2b_step W s j)) = if Nat.eqb (b_cnt s) (W - 1) then BFin else BBusy) as Es' by (unfold b2b_step; rewrite Es; reflexivity).
  assert (b_cnt (fst (b2b_step W s j)) = winc (log2ceil W) (b_cnt s)) as Ec' by (unfold b2b_step; rewrite Es; reflexivity).
  assert (bo_vld (snd (b2b_step W s j)) = false /\ bo_rd (snd (b2b_step W s j)) = false) as Ho by (unfold b2b_step; rewrite Es; split; reflexivity).
  destruct (Nat.eqb_spec (b_cnt s) (W - 1)) as [E|Nn].
  - assert (js = []) as -> by (destruct js; [reflexivity|simpl in Hl; lia]). split; [|split].
    + constructor; [exact Ho|constructor].
    + exact Es'.
    + rewrite final_nil. replace W with (S k) at 2 by lia. exact Hc'.
  - destruct (IH (fst (b2b_step W s j)) (S k)) as (I1 & I2 & I3).
    + exact Es'.
    + rewrite Ec'. rewrite winc_small; [lia|]. pose proof (log2ceil_ge W). lia.
    + lia.
    + exact Hc'.
    + simpl in Hl. lia.
    + split; [|split; assumption]. constructor; [exact Ho|exact I1].
Qed.

Lemma c27_latency : forall (W D : nat) (bin0 : N) (is : list (bcd_in N)) (i : bcd_in N) (js : list (bcd_in N)) (k : bcd_in N),
  (1 <= W)%nat -> 2 ^ N.of_nat W <= 10 ^ N.of_nat D ->
  (forall j, In j (is ++ [i]) -> bi_vld j = true -> bi_data j < 2 ^ N.of_nat W) ->
  let s := final (b2b_step W) (b2b_init D bin0) is in
  bi_vld i = true -> bo_rd (snd (b2b_step W s i)) = true -> length js = W ->
  let t := map bcd_obs (trace (b2b_step W) s ([i] ++ js ++ [k])) in
  (forall n c, nth_error t n = Some c -> (out_vld c = true <-> n = S W)) /\
  (forall c, nth_error t (S W) = Some c -> decimal D (bi_data i) (out_data c)).
Proof.
  intros W D bin0 is i js k HW HD Hok s Hv Hr Hl t.
  destruct (one_inv (b2b_step W) (decimal D) (fun x => x < 2 ^ N.of_nat W) (b2b_inv W D) (b2b_hstep W D HW HD) _ is (b2b_start W D bin0)) as [p HI].
  { intros j Hj. apply Hok. apply in_or_app. left. exact Hj. }
  fold s in HI. clearbody s.
  assert (b_st s = BIdle) as Es by (unfold b2b_step in Hr; cbn [snd bo_rd] in Hr; destruct (b_st s); [reflexivity|discriminate|discriminate]).
  pose proof (b2b_inv_step W D HW HD s p i HI) as HI'.
  assert (In i (is ++ [i])) as Hin by (apply in_or_app; right; left; reflexivity).
  specialize (HI' (Hok i Hin)). unfold b2b_pend in HI'. rewrite Hv, Hr in HI'. cbn [andb] in HI'.
  assert (b_st (fst (b2b_step W s i)) = BBusy /\ b_cnt (fst (b2b_step W s i)) = 0%nat) as [Es1 Ec1] by (unfold b2b_step; rewrite Es, Hv; split; reflexivity).
  assert (bo_vld (snd (b2b_step W s i)) = false) as Ev0 by (unfold b2b_step; rewrite Es; reflexivity).
  unfold t. cbn [app]. rewrite trace_cons. cbn [map]. set (s1 := fst (b2b_step W s i)) in *. clearbody s1.
  destruct HI' as [_ HI']. rewrite Es1 in HI'. destruct HI' as [_ Hc]. rewrite Ec1 in Hc.
  destruct (b2b_busy W D HW HD (bi_data i) js s1 0%nat Es1 Ec1 ltac:(lia) Hc ltac:(lia)) as (H1 & H2 & H3).
  rewrite trace_snoc, map_app. set (s2 := final (b2b_step W) s1 js) in *. clearbody s2.
  assert (length (map bcd_obs (trace (b2b_step W) s1 js)) = W) as Hlen by (rewrite map_length, trace_length; exact Hl).
  set (m := map bcd_obs (trace (b2b_step W) s1 js)) in *. clearbody m.
  assert (bo_vld (snd (b2b_step W s2 k)) = true /\ bo_data (snd (b2b_step W s2 k)) = b_bcd s2) as [Ev2 Ed2] by (unfold b2b_step; rewrite H2; split; reflexivity).
  split.
  - intros n c Hn. destruct n as [|n]; cbn [nth_error] in Hn.
    + injection Hn as <-. change (bo_vld (snd (b2b_step W s i)) = true <-> 0%nat = S W). rewrite Ev0. split; [discriminate|lia].
    + destruct (Nat.lt_ge_cases n W) as [L|G].
      * rewrite nth_error_app1 in Hn by lia. apply nth_error_In in Hn. rewrite Forall_forall in H1. rewrite (proj1 (H1 c Hn)). split; [discriminate|lia].
      * rewrite nth_error_app2, Hlen in Hn by lia. destruct (n - W)%nat as [|q] eqn:Eq; [|destruct q; discriminate].
        cbn [map nth_error] in Hn. injection Hn as <-. change (bo_vld (snd (b2b_step W s2 k)) = true <-> S n = S W). rewrite Ev2. split; [lia|reflexivity].
  - intros c Hn. cbn [nth_error] in Hn. rewrite nth_error_app2, Hlen, Nat.sub_diag in Hn by lia. cbn [map nth_error] in Hn.
    injection Hn as <-. change (decimal D (bi_data i) (bo_data (snd (b2b_step W s2 k)))). rewrite Ed2. apply (conv_fin W D). exact H3.
Qed.

(** * BcdToBin *)
Lemma unshift_digit d up : dig d -> up <= 1 ->
  undabble (N.shiftr d 1 + 8 * up) = d / 2 + 5 * up.
Proof.
  intros Hd Hu. assert (up = 0 \/ up = 1) as [-> | ->] by lia; revert d Hd; apply digit_cases; reflexivity.
Qed.
Definition odd0 (ds : list N) : N := match ds with [] => 0 | e :: _ => N.b2n (N.testbit e 0) end.
Lemma odd0_le ds : odd0 ds <= 1.
Proof. destruct ds as [|d ds]; [simpl; lia|]. cbn [odd0]. destruct (N.testbit d 0); cbn [N.b2n]; lia. Qed.
Lemma half_odd d : d = 2 * (d / 2) + N.b2n (N.testbit d 0).
Proof. rewrite N.bit0_odd. pose proof (N.div2_odd d) as H. rewrite N.div2_div in H. exact H. Qed.

Lemma unshift_spec ds : Forall dig ds ->
  dec_value ds = 2 * dec_value (bcd_unshift ds) + odd0 ds /\ Forall dig (bcd_unshift ds) /\ length (bcd_unshift ds) = length ds.
Proof.
  induction ds as [|d ds IH]; intros H; [repeat split; constructor|].
  inversion_clear H as [|? ? Hd Hds]. destruct (IH Hds) as (Ev & Hf & Hl).
  cbn [bcd_unshift dec_value odd0]. fold (odd0 ds).
  change (match ds with [] => 0 | e :: _ => N.b2n (N.testbit e 0) end) with (odd0 ds).
  pose proof (odd0_le ds) as Ho. rewrite unshift_digit by assumption.
  pose proof (half_odd d) as Hh. set (q := d / 2) in *. set (b := N.b2n (N.testbit d 0)) in *. clearbody b.
  split; [|split].
  - lia.
  - constructor; [|exact Hf]. unfold dig in *. assert (q <= 4) by (clear - Hd Hh; clearbody q; lia). clearbody q. lia.
  - simpl. f_equal. exact Hl.
Qed.

Lemma b2n_le (b : bool) : N.b2n b <= 1.
Proof. destruct b; cbn [N.b2n]; lia. Qed.

Section D2B.
  Variable D : nat.
  Hypothesis HD : (1 <= D)%nat.
  Notation B := (d2b_width D).

  Lemma width_ok : 10 ^ N.of_nat D <= 2 ^ N.of_nat B /\ (1 <= B)%nat.
  Proof.
    assert (1 <= B)%nat as HB by apply log2ceil_pos. split; [|exact HB].
    change 10 with (N.of_nat 10). change 2 with (N.of_nat 2). rewrite <- !Nat2N.inj_pow.
    assert (10 ^ D <= 2 ^ B)%nat; [|lia].
    pose proof (log2ceil_ge (10 ^ D - 1)) as H. fold B in H.
    assert (exists m, 10 ^ D = 2 * m)%nat as [m Em].
    { destruct D as [|d]; [lia|]. exists (5 * 10 ^ d)%nat. rewrite Nat.pow_succ_r'. lia. }
    assert (exists m, 2 ^ B = 2 * m)%nat as [m2 Em2].
    { destruct B as [|b]; [lia|]. exists (2 ^ b)%nat. rewrite Nat.pow_succ_r'. lia. }
    rewrite Em, Em2 in *. lia.
  Qed.

  (** after [j] shifts of the digits [ds] *)
  Definition unconv_ok (ds : list N) (j : nat) (s : d2b) : Prop :=
    (j <= B)%nat /\ Forall dig ds /\ length ds = D /\
    Forall dig (d_bcd s) /\ length (d_bcd s) = D /\
    dec_value (d_bcd s) = dec_value ds / 2 ^ N.of_nat j /\
    d_bin s = (dec_value ds mod 2 ^ N.of_nat j) * 2 ^ N.of_nat (B - j) /\
    d_cnt s = if Nat.eqb j 0 then d2b_cnt0 D else (B - j)%nat.
  Definition d2b_inv (s : d2b) (p : option (list N)) : Prop :=
    match d_st s, p with
    | DIdle, None => True
    | DLoad, Some ds => unconv_ok ds 0 s
    | DConv, Some ds => exists j, (1 <= j)%nat /\ unconv_ok ds j s
    | DDone, Some ds => d_bin s = dec_value ds
    | _, _ => False
    end.

  Lemma unconv_step ds j s i : unconv_ok ds j s -> (j < B)%nat -> d2b_next s i = DConv ->
    unconv_ok ds (S j) (fst (d2b_step D s i)).
  Proof.
    intros (_ & Hd & Hl & Hf & Hlf & Ev & Eb & Ec) Hj Hn. unfold d2b_step. rewrite Hn. cbn [fst].
    unfold unconv_ok. cbn [d_bcd d_bin d_cnt d_st].
    destruct (unshift_spec (d_bcd s) Hf) as (U1 & U2 & U3).
    change (match d_bcd s with [] => 0 | d :: _ => N.b2n (N.testbit d 0) end) with (odd0 (d_bcd s)).
    pose proof (odd0_le (d_bcd s)) as Ho.
    set (V := dec_value ds) in *. set (o := odd0 (d_bcd s)) in *. clearbody o.
    assert (V / 2 ^ N.of_nat (S j) = dec_value (bcd_unshift (d_bcd s)) /\ (V / 2 ^ N.of_nat j) mod 2 = o) as [Q1 Q2].
    { rewrite Nat2N.inj_succ, N.pow_succ_r, N.mul_comm by lia. rewrite <- N.div_div by (try apply N.pow_nonzero; lia).
      rewrite <- Ev, U1. split.
      - rewrite N.mul_comm, N.div_add_l by lia. rewrite (N.div_small o) by lia. lia.
      - rewrite N.add_comm, N.mul_comm, N.mod_add by lia. apply N.mod_small. lia. }
    assert (V mod 2 ^ N.of_nat (S j) = V mod 2 ^ N.of_nat j + 2 ^ N.of_nat j * o) as Q3.
    { rewrite Nat2N.inj_succ, N.pow_succ_r, N.mul_comm by lia. rewrite N.mod_mul_r by (try apply N.pow_nonzero; lia). rewrite Q2. reflexivity. }
    split; [exact Hj|]. split; [exact Hd|]. split; [exact Hl|]. split; [exact U2|]. split; [rewrite U3; exact Hlf|]. split; [symmetry; exact Q1|]. split.
    - rewrite Q3, Eb, N.shiftr_div_pow2. change (2 ^ 1) with 2.
      replace (N.of_nat (B - j)) with (N.succ (N.of_nat (B - S j))) by (clear - Hj; lia). rewrite N.pow_succ_r by (clear; lia).
      replace (N.of_nat (B - 1)) with (N.of_nat j + N.of_nat (B - S j)) by (clear - Hj; lia). rewrite N.pow_add_r.
      set (m := V mod 2 ^ N.of_nat j). set (y := 2 ^ N.of_nat (B - S j)). clear. generalize (2 ^ N.of_nat j). intros z. clearbody m y.
      replace (m * (2 * y)) with (m * y * 2) by lia. rewrite N.div_mul by lia. rewrite N.mul_add_distr_r. f_equal.
      rewrite (N.mul_comm z o), N.mul_assoc. reflexivity.
    - change (Nat.eqb (S j) 0) with false. cbn [Nat.eqb]. rewrite Ec. clear - Hj HD.
      pose proof (log2ceil_ge B) as HB. pose proof (proj2 width_ok) as HB1.
      destruct (Nat.eqb_spec j 0) as [->|Nz].
      + unfold d2b_cnt0. destruct (Nat.eq_dec B (2 ^ log2ceil B)) as [E|NE].
        * set (P := (2 ^ log2ceil B)%nat) in *. unfold wdec, wrap. fold P.
          replace (B mod P)%nat with 0%nat by (rewrite E; symmetry; apply Nat.mod_same; lia).
          rewrite Nat.mod_small by lia. lia.
        * rewrite (wrap_small _ B) by lia. rewrite wdec_pos by lia. reflexivity.
      + rewrite wdec_pos by lia. lia.
  Qed.

  Definition bcd_ok (ds : list N) : Prop := length ds = D /\ Forall dig ds.

  Lemma load_ok ds s : bcd_ok ds -> d_bcd s = ds -> d_bin s = 0 -> d_cnt s = d2b_cnt0 D -> unconv_ok ds 0 s.
  Proof.
    intros [H1 H2] E1 E2 E3. unfold unconv_ok. rewrite E1, E2, E3. simpl N.of_nat. rewrite N.pow_0_r, N.div_1_r, N.mod_1_r.
    split; [lia|]. repeat (split; [assumption || reflexivity|]). reflexivity.
  Qed.

  Lemma d2b_hstep s p i : d2b_inv s p -> (bi_vld i = true -> bcd_ok (bi_data i)) ->
    let o := snd (d2b_step D s i) in
    d2b_inv (fst (d2b_step D s i)) (nextp p i o) /\
    (bo_vld o = true -> exists x, p = Some x /\ bo_data o = dec_value x) /\
    (bo_rd o = true -> p = None \/ (bo_vld o = true /\ bi_rd i = true)).
  Proof.
    intros HI Hi o.
    assert (d_st (fst (d2b_step D s i)) = d2b_next s i) as Es' by reflexivity.
    assert (d2b_next s i = DLoad -> d_bcd (fst (d2b_step D s i)) = bi_data i /\ d_bin (fst (d2b_step D s i)) = 0 /\ d_cnt (fst (d2b_step D s i)) = d2b_cnt0 D) as HL.
    { intros E. unfold d2b_step. rewrite E. repeat split. }
    assert (d2b_next s i = DDone -> d_bin (fst (d2b_step D s i)) = d_bin s) as HDn.
    { intros E. unfold d2b_step. rewrite E. reflexivity. }
    assert (bo_rd o = match d_st s with DIdle => true | DDone => bi_rd i | _ => false end) as Er by reflexivity.
    assert (bo_vld o = match d_st s with DDone => true | _ => false end) as Ev by reflexivity.
    assert (bo_data o = d_bin s) as Ed by reflexivity.
    pose proof (fun ds j => unconv_step ds j s i) as HU.
    rewrite Er, Ev, Ed. unfold nextp. rewrite Er, Ev. unfold d2b_inv in HI |- *. rewrite Es'.
    set (s' := fst (d2b_step D s i)) in *. clearbody s'. clear Es' Er Ev Ed. clearbody o.
    destruct (d_st s) eqn:Est; destruct p as [ds|]; try contradiction; unfold d2b_next in *; rewrite Est in *.
    - split; [|split; [discriminate|left; reflexivity]]. rewrite andb_true_r. destruct (bi_vld i) eqn:E; [|exact I].
      destruct (HL eq_refl) as (L1 & L2 & L3). apply load_ok; auto.
    - split; [|split; discriminate]. rewrite andb_false_r. exists 1%nat. split; [lia|]. apply HU; [exact HI| |reflexivity].
      pose proof (proj2 width_ok). lia.
    - split; [|split; discriminate]. rewrite andb_false_r. destruct HI as (j & Hj & HI).
      pose proof HI as (Hle & _ & _ & Hf & _ & Evv & Eb & Ec). destruct (Nat.eqb_spec j 0); [lia|].
      destruct (Nat.eqb_spec (d_cnt s) 0) as [E0|N0].
      + assert (j = B) as -> by lia. rewrite HDn by reflexivity. rewrite Eb, Nat.sub_diag. simpl N.of_nat.
        rewrite N.pow_0_r, N.mul_1_r. apply N.mod_small. destruct HI as (_ & Hd & Hl & _).
        pose proof (dec_bound ds Hd) as Hb. rewrite Hl in Hb. pose proof (proj1 width_ok). lia.
      + exists (S j). split; [lia|]. apply HU; [exact HI| |reflexivity]. lia.
    - split; [|split; [intros _; exists ds; split; [reflexivity|exact HI]|intros Hr; right; split; [reflexivity|exact Hr]]].
      destruct (bi_vld i) eqn:E1, (bi_rd i) eqn:E2; cbn [andb] in *.
      + destruct (HL eq_refl) as (L1 & L2 & L3). apply load_ok; auto.
      + rewrite HDn by reflexivity. exact HI.
      + exact I.
      + rewrite HDn by reflexivity. exact HI.
  Qed.
End D2B.

Lemma c28 : forall (D : nat) (is : list (bcd_in (list N))),
  (1 <= D)%nat ->
  (forall i, In i is -> bi_vld i = true -> length (bi_data i) = D /\ Forall (fun d => d <= 9) (bi_data i)) ->
  let t := map bcd_obs (trace (d2b_step D) (d2b_init D) is) in
  one_to_one (fun ds v => v = dec_value ds) t /\ out_stable t.
Proof.
  intros D is HD Hok t. split.
  - apply (one_law (d2b_step D) (fun ds v => v = dec_value ds) (bcd_ok D) (d2b_inv D) (d2b_hstep D HD) (d2b_init D) is I Hok).
  - unfold t. clear t Hok. generalize (d2b_init D). intros s. revert s. induction is as [|i is IH]; intros s; [exact Logic.I|].
    rewrite trace_cons. cbn [map]. destruct is as [|j is]; [exact Logic.I|]. specialize (IH (fst (d2b_step D s i))).
    rewrite trace_cons in IH |- *. cbn [map] in IH |- *. split; [|exact IH].
    intros Hv Hr. cbn [bcd_obs out_vld out_rd out_data fst snd] in *.
    unfold d2b_step in *. cbn [fst snd bo_vld bo_data d_st d_bcd d_bin] in *. destruct (d_st s) eqn:E; try discriminate.
    assert (d2b_next s i = DDone) as -> by (unfold d2b_next; rewrite E, Hr, andb_false_r; reflexivity). split; reflexivity.
Qed.

Lemma d2b_busy D (HD : (1 <= D)%nat) ds : forall js s j,
  d_st s = DConv -> (1 <= j)%nat -> unconv_ok D ds j s -> (length js = d2b_width D - j + 1)%nat ->
  Forall (fun c => out_vld c = false) (map bcd_obs (trace (d2b_step D) s js)) /\
  d2b_inv D (final (d2b_step D) s js) (Some ds) /\ d_st (final (d2b_step D) s js) = DDone.
Proof.
  induction js as [|k js IH]; intros s j Es Hj Hc Hl; [simpl in Hl; lia|].
  rewrite trace_cons, final_cons. cbn [map].
  assert (d2b_inv D s (Some ds)) as HI by (unfold d2b_inv; rewrite Es; exists j; split; assumption).
  assert (d_st (fst (d2b_step D s k)) = d2b_next s k) as Es' by reflexivity.
  assert (bo_vld (snd (d2b_step D s k)) = false) as Ev by (unfold d2b_step; rewrite Es; reflexivity).
  pose proof Hc as (Hle & _ & _ & _ & _ & _ & _ & Ec). destruct (Nat.eqb_spec j 0); [lia|].
  destruct (Nat.eq_dec j (d2b_width D)) as [E|Nn].
  - assert (js = []) as -> by (destruct js; [reflexivity|simpl in Hl; lia]).
    assert (d2b_next s k = DDone) as En.
    { unfold d2b_next. rewrite Es. destruct (Nat.eqb_spec (d_cnt s) 0); [reflexivity|lia]. }
    split; [constructor; [exact Ev|constructor]|]. rewrite final_nil. split; [|rewrite Es'; exact En].
    destruct (d2b_hstep D HD s (Some ds) (mk_bi false (bi_data k) (bi_rd k)) HI ltac:(discriminate)) as [H _].
    cbn [nextp bi_vld andb] in H. unfold nextp in H. cbn [bi_vld andb] in H.
    assert (bo_vld (snd (d2b_step D s (mk_bi false (bi_data k) (bi_rd k)))) = false) as E2 by (unfold d2b_step; rewrite Es; reflexivity).
    rewrite E2 in H. cbn [andb] in H. unfold d2b_inv in H |- *.
    assert (d_st (fst (d2b_step D s (mk_bi false (bi_data k) (bi_rd k)))) = DDone) as E3.
    { change (d2b_next s (mk_bi false (bi_data k) (bi_rd k)) = DDone). rewrite <- En. unfold d2b_next. rewrite Es. reflexivity. }
    rewrite E3 in H. rewrite Es', En. unfold d2b_step in H |- *. rewrite En.
    change (d2b_next s (mk_bi false (bi_data k) (bi_rd k))) with (d_st (fst (d2b_step D s (mk_bi false (bi_data k) (bi_rd k))))) in H.
    rewrite E3 in H. exact H.
  - assert (d2b_next s k = DConv) as En.
    { unfold d2b_next. rewrite Es. destruct (Nat.eqb_spec (d_cnt s) 0); [lia|reflexivity]. }
    destruct (IH (fst (d2b_step D s k)) (S j)) as (I1 & I2).
    + rewrite Es'. exact En.
    + lia.
    + apply unconv_step; [exact HD|exact Hc|lia|exact En].
    + simpl in Hl. lia.
    + split; [constructor; [exact Ev|exact I1]|exact I2].
Qed.

Lemma c28_latency : forall (D : nat) (is : list (bcd_in (list N))) (i : bcd_in (list N)) (js : list (bcd_in (list N))) (k : bcd_in (list N)),
  (1 <= D)%nat ->
  (forall j, In j (is ++ [i]) -> bi_vld j = true -> length (bi_data j) = D /\ Forall (fun d => d <= 9) (bi_data j)) ->
  let s := final (d2b_step D) (d2b_init D) is in
  bi_vld i = true -> bo_rd (snd (d2b_step D s i)) = true -> length js = (d2b_width D + 1)%nat ->
  let t := map bcd_obs (trace (d2b_step D) s ([i] ++ js ++ [k])) in
  (forall n c, (1 <= n)%nat -> nth_error t n = Some c -> (out_vld c = true <-> n = d2b_width D + 2)%nat) /\
  (forall c, nth_error t (d2b_width D + 2) = Some c -> out_data c = dec_value (bi_data i)).
Proof.
  intros D is i js k HD Hok s Hv Hr Hl t.
  destruct (one_inv (d2b_step D) (fun ds v => v = dec_value ds) (bcd_ok D) (d2b_inv D) (d2b_hstep D HD) (d2b_init D) is I) as [p HI].
  { intros j Hj. apply Hok. apply in_or_app. left. exact Hj. }
  fold s in HI. clearbody s.
  assert (In i (is ++ [i])) as Hin by (apply in_or_app; right; left; reflexivity).
  destruct (d2b_hstep D HD s p i HI (Hok i Hin)) as [HI' _]. unfold nextp in HI'. rewrite Hv, Hr in HI'. cbn [andb] in HI'.
  assert (d2b_next s i = DLoad) as En.
  { unfold d2b_step in Hr. cbn [snd bo_rd] in Hr. unfold d2b_next. destruct (d_st s); try discriminate; rewrite Hv, ?Hr; reflexivity. }
  assert (d_st (fst (d2b_step D s i)) = DLoad) as Es1 by exact En.
  unfold t. cbn [app]. rewrite trace_cons. cbn [map]. set (s1 := fst (d2b_step D s i)) in *. clearbody s1.
  unfold d2b_inv in HI'. rewrite Es1 in HI'.
  destruct js as [|j0 js]; [simpl in Hl; lia|]. cbn [app]. rewrite trace_cons. cbn [map].
  assert (d2b_next s1 j0 = DConv) as En1 by (unfold d2b_next; rewrite Es1; reflexivity).
  assert (1 <= d2b_width D)%nat as HB by apply (width_ok D HD).
  pose proof (unconv_step D HD (bi_data i) 0 s1 j0 HI' ltac:(lia) En1) as Hc.
  assert (bo_vld (snd (d2b_step D s1 j0)) = false) as Ev1 by (unfold d2b_step; rewrite Es1; reflexivity).
  assert (d_st (fst (d2b_step D s1 j0)) = DConv) as Es2 by exact En1.
  set (s2 := fst (d2b_step D s1 j0)) in *. clearbody s2.
  destruct (d2b_busy D HD (bi_data i) js s2 1 Es2 ltac:(lia) Hc ltac:(simpl in Hl; lia)) as (H1 & H2 & H3).
  rewrite trace_snoc, map_app. set (s3 := final (d2b_step D) s2 js) in *. clearbody s3.
  assert (length (map bcd_obs (trace (d2b_step D) s2 js)) = d2b_width D) as Hlen by (rewrite map_length, trace_length; simpl in Hl; lia).
  set (m := map bcd_obs (trace (d2b_step D) s2 js)) in *. clearbody m.
  assert (bo_vld (snd (d2b_step D s3 k)) = true /\ bo_data (snd (d2b_step D s3 k)) = dec_value (bi_data i)) as [Ev3 Ed3].
  { unfold d2b_inv in H2. rewrite H3 in H2. unfold d2b_step. rewrite H3. cbn [snd bo_vld bo_data]. split; [reflexivity|exact H2]. }
  split.
  - intros n c Hn1 Hn. destruct n as [|n]; [lia|]. cbn [nth_error] in Hn. destruct n as [|n]; cbn [nth_error] in Hn.
    + injection Hn as <-. change (bo_vld (snd (d2b_step D s1 j0)) = true <-> (1 = d2b_width D + 2)%nat). rewrite Ev1. split; [discriminate|lia].
    + destruct (Nat.lt_ge_cases n (d2b_width D)) as [L|G].
      * rewrite nth_error_app1 in Hn by lia. apply nth_error_In in Hn. rewrite Forall_forall in H1. rewrite (H1 c Hn). split; [discriminate|lia].
      * rewrite nth_error_app2, Hlen in Hn by lia. destruct (n - d2b_width D)%nat as [|q] eqn:Eq; [|destruct q; discriminate].
        cbn [map nth_error] in Hn. injection Hn as <-. change (bo_vld (snd (d2b_step D s3 k)) = true <-> (S (S n) = d2b_width D + 2)%nat).
        rewrite Ev3. split; [lia|reflexivity].
  - intros c Hn. replace (d2b_width D + 2)%nat with (S (S (d2b_width D))) in Hn by lia. cbn [nth_error] in Hn.
    rewrite nth_error_app2, Hlen, Nat.sub_diag in Hn by lia. cbn [map nth_error] in Hn. injection Hn as <-. exact Ed3.
Qed.

Definition ex27 : list (bcd_in N) := [mk_bi true 251 true] ++ repeat (mk_bi true 7 false) 9 ++ repeat (mk_bi true 99 true) 20.
Definition ex28 : list (bcd_in (list N)) :=
  [mk_bi true [1; 5; 2] true] ++ repeat (mk_bi true [9; 9; 9] false) 15 ++ repeat (mk_bi true [7; 0; 0] true) 20.
