(** Proofs about the I2C bit controller. *)
From Verif Require Import Base BaseFacts I2cModel I2cSpec.
Local Opaque wdec.

(** the part of the state which makes the waves *)
Definition core (s : i2c) : i2c_st * bool * bool := (s_st s, s_scl s, s_sda s).
Definition core_step (s : i2c_st * bool * bool) (x : nat * bool) : (i2c_st * bool * bool) * (bool * (bool * bool)) :=
  let '(st, scl, sda) := s in
  ((st_next false (fst x) st, scl_next false st scl, sda_next false st (snd x) sda), (ack false st, (negb scl, negb sda))).
Definition cmd_of (i : i2c_in) := (i_cmd i, i_din i).
Definition wv (o : i2c_out) := (o_rd o, levels o).
Definition no_al (os : list i2c_out) := Forall (fun o => o_al o = false) os.

Lemma core_of s i : s_al s = false -> core (fst (i2c_step s i)) = fst (core_step (core s) (cmd_of i)) /\ wv (snd (i2c_step s i)) = snd (core_step (core s) (cmd_of i)).
Proof. intros H. unfold i2c_step, core, wv, levels. cbn. rewrite H. split; reflexivity. Qed.
Lemma core_run is : forall s, no_al (outs i2c_step s is) ->
  map wv (outs i2c_step s is) = outs core_step (core s) (map cmd_of is) /\ core (final i2c_step s is) = final core_step (core s) (map cmd_of is).
Proof.
  induction is as [|i is IH]; intros s H; [split; reflexivity|].
  rewrite outs_cons in *. pose proof (Forall_inv H) as Ha. pose proof (Forall_inv_tail H) as Hr. change (s_al s = false) in Ha. rewrite final_cons. cbn [map]. rewrite outs_cons, final_cons.
  destruct (core_of s i Ha) as [C W]. destruct (IH _ Hr) as [A B]. rewrite W, A, B, C. split; reflexivity.
Qed.

Lemma held_cmds k cmd d is : held_for k cmd d is -> map cmd_of is = repeat (cmd, d) k.
Proof.
  intros [H F]. subst k. induction F as [|i is [H1 H2] F IH]; [reflexivity|]. cbn. unfold cmd_of at 1. rewrite H1, H2, IH. reflexivity.
Qed.
Lemma seg_run g x y : seg_ok g ->
  outs core_step (idle, x, y) (map cmd_of (cycles g)) = combine (acks g) (fst (wave g (negb x, negb y))) /\
  final core_step (idle, x, y) (map cmd_of (cycles g)) = (idle, negb (fst (snd (wave g (negb x, negb y)))), negb (snd (snd (wave g (negb x, negb y))))) /\
  length (acks g) = length (cycles g) /\ length (fst (wave g (negb x, negb y))) = length (cycles g).
Proof.
  destruct g as [i|cmd d is]; cbn [seg_ok cycles acks].
  - intros H. unfold cmd_of. cbn. rewrite H. destruct x, y; auto.
  - intros [[-> H]|[C H]]; rewrite (held_cmds _ _ _ _ H); destruct H as [L _]; rewrite !L.
    + destruct x, y, d; vm_compute; auto.
    + destruct C as [-> |[-> | ->]]; destruct x, y, d; vm_compute; auto.
Qed.
Lemma segs_run gs : forall x y, Forall seg_ok gs -> outs core_step (idle, x, y) (map cmd_of (concat (map cycles gs))) =
  combine (concat (map acks gs)) (waves gs (negb x, negb y)).
Proof.
  induction gs as [|g gs IH]; intros x y F; [reflexivity|]. inversion F as [|? ? Hg Hr]; subst.
  cbn [map concat waves]. rewrite map_app, outs_app. destruct (seg_run g x y Hg) as (A & B & L1 & L2).
  rewrite A, B, (IH _ _ Hr), !negb_involutive, <- surjective_pairing.
  assert (E : forall {A B} (a b : list A) (c d : list B), length a = length c -> combine (a ++ b) (c ++ d) = combine a c ++ combine b d).
  { clear. induction a as [|p a IH]; intros b [|q c] d L; try discriminate; [reflexivity|]. cbn. rewrite IH; [reflexivity|]. injection L; auto. }
  rewrite E; [reflexivity|congruence].
Qed.
Lemma waves_len gs : forall x y, Forall seg_ok gs -> length (waves gs (negb x, negb y)) = length (concat (map acks gs)).
Proof.
  induction gs as [|g gs IH]; intros x y F; [reflexivity|]. inversion F as [|? ? Hg Hr]; subst. cbn [waves map concat]. rewrite !app_length.
  destruct (seg_run g x y Hg) as (_ & _ & L1 & L2). rewrite L1, L2. f_equal.
  rewrite (surjective_pairing (snd (wave g (negb x, negb y)))), <- (negb_involutive (fst _)), <- (negb_involutive (snd (snd _))). apply IH, Hr.
Qed.
Lemma combine_fst {A B} (a : list A) : forall (b : list B), length b = length a -> map fst (combine a b) = a /\ map snd (combine a b) = b.
Proof. induction a as [|x a IH]; intros [|y b] L; try discriminate; [split; reflexivity|]. cbn. injection L as L. destruct (IH _ L) as [-> ->]. split; reflexivity. Qed.

Lemma i2c_waves c gs : Forall seg_ok gs -> let os := outs i2c_step (i2c_init c) (concat (map cycles gs)) in
  Forall (fun o => o_al o = false) os -> map levels os = waves gs (true, true) /\ map o_rd os = concat (map acks gs).
Proof.
  intros F os N. destruct (core_run _ _ N) as [R _]. change (core (i2c_init c)) with (idle, false, false) in R. rewrite (segs_run _ _ _ F) in R.
  destruct (combine_fst (concat (map acks gs)) (waves gs (negb false, negb false)) (waves_len gs false false F)) as [E1 E2].
  pose proof (f_equal (map fst) R) as R1. pose proof (f_equal (map snd) R) as R2. rewrite E1 in R1. rewrite E2 in R2. rewrite !map_map in R1, R2.
  split; [exact R2|exact R1].
Qed.

(** timing does not depend on clk_cnt_initVal nor on the lines *)
Lemma i2c_fixed c c' is is' : map (fun i => (i_cmd i, i_din i)) is = map (fun i => (i_cmd i, i_din i)) is' ->
  let os := outs i2c_step (i2c_init c) is in let os' := outs i2c_step (i2c_init c') is' in
  Forall (fun o => o_al o = false) os -> Forall (fun o => o_al o = false) os' ->
  map (fun o => (o_rd o, o_scl o, o_sda o)) os = map (fun o => (o_rd o, o_scl o, o_sda o)) os'.
Proof.
  intros E os os' N N'. destruct (core_run _ _ N) as [R _]. destruct (core_run _ _ N') as [R' _].
  change (core (i2c_init c)) with (idle, false, false) in R. change (core (i2c_init c')) with (idle, false, false) in R'.
  unfold cmd_of in R, R'. rewrite E in R. rewrite <- R' in R. fold os os' in R.
  assert (X : forall l, map (fun o => (o_rd o, o_scl o, o_sda o)) l = map (fun w : bool * (bool * bool) => (fst w, negb (fst (snd w)), negb (snd (snd w)))) (map wv l)).
  { intros l. rewrite map_map. apply map_ext. intros o. unfold wv, levels. cbn. rewrite !negb_involutive. reflexivity. }
  rewrite !X. unfold os, os' in *. rewrite R. reflexivity.
Qed.

(** dout *)
Lemma dout_same is : forall is' s s', map (fun i => (i_cnt i, i_scl i)) is = map (fun i => (i_cnt i, i_scl i)) is' ->
  (s_fscl s, s_fcnt s, s_lscl s, s_dout s) = (s_fscl s', s_fcnt s', s_lscl s', s_dout s') ->
  map o_dout (outs i2c_step s is) = map o_dout (outs i2c_step s' is').
Proof.
  induction is as [|i is IH]; intros [|i' is'] s s' E H; try discriminate; [reflexivity|]. cbn in E. injection E as E1 E2 E3. injection H as H1 H2 H3 H4.
  rewrite !outs_cons. cbn [map]. apply (f_equal2 (@cons _)); [exact H4|]. apply IH; [exact E3|]. cbn. rewrite H1, H2, H3, E1, E2. reflexivity.
Qed.
Lemma i2c_dout_same c is is' : map (fun i => (i_cnt i, i_scl i)) is = map (fun i => (i_cnt i, i_scl i)) is' ->
  map o_dout (outs i2c_step (i2c_init c) is) = map o_dout (outs i2c_step (i2c_init c) is').
Proof. intros E. apply dout_same; [exact E|reflexivity]. Qed.

(** filters *)
Lemma samples_ext c x y n : (forall k, k < n -> x k = y k) -> samples c x n = samples c y n.
Proof.
  induction n as [|n IH]; intros H; [reflexivity|]. cbn [samples]. rewrite IH by (intros; apply H; lia).
  destruct (Nat.ltb_spec n 2); [reflexivity|]. rewrite (H (n - 2)) by lia. reflexivity.
Qed.
Lemma samples_three c x n : exists a b d l, samples c x n = a :: b :: d :: l.
Proof. induction n as [|n (a & b & d & l & IH)]; [cbn; eauto|]. cbn [samples]. rewrite IH. destruct (_ =? 0); eauto. Qed.
Lemma clean_ext c x y n m : n <= m -> (forall k, k < m -> x k = y k) -> clean c x n = clean c y n.
Proof. intros H E. unfold clean. rewrite (samples_ext c x y n); [reflexivity|]. intros. apply E. lia. Qed.

Definition filt_inv (c n : nat) (x : nat -> bool) (f : filt) : Prop :=
  f_0 f = (if n <? 1 then false else x (n - 1)) /\ f_1 f = (if n <? 2 then false else x (n - 2)) /\
  firstn 3 (samples c x n) = [f_s0 f; f_s1 f; f_s2 f].
Lemma filtered_clean c n x f : filt_inv c n x f -> filtered f = clean c x n.
Proof. intros (_ & _ & H). unfold clean, majority, filtered. rewrite H. destruct (f_s0 f), (f_s1 f), (f_s2 f); reflexivity. Qed.
Lemma filt_step c n x f b cnt : filt_inv c n x f -> (cnt =? 0) = (S n mod (c + 1) =? 0) -> x n = b -> filt_inv c (S n) x (filt_next (cnt =? 0) f b).
Proof.
  intros (H0 & H1 & H2) Hc Hb. unfold filt_inv, filt_next. rewrite Hc.
  assert (Hx : (if n <? 2 then false else x (n - 2)) = f_1 f) by (rewrite H1; reflexivity).
  destruct (S n mod (c + 1) =? 0) eqn:T; cbn [f_0 f_1 f_s0 f_s1 f_s2 samples]; rewrite T.
  - split; [|split].
    + change (S n <? 1) with false. cbn [Nat.sub]. rewrite Nat.sub_0_r. symmetry; exact Hb.
    + rewrite H0. destruct n; [reflexivity|]. change (S n <? 1) with false. change (S (S n) <? 2) with false. cbv iota. f_equal; lia.
    + destruct (samples_three c x n) as (p & q & r & l & E). rewrite E in *. cbn [firstn] in *. rewrite Hx. congruence.
  - split; [|split].
    + change (S n <? 1) with false. cbn [Nat.sub]. rewrite Nat.sub_0_r. symmetry; exact Hb.
    + rewrite H0. destruct n; [reflexivity|]. change (S n <? 1) with false. change (S (S n) <? 2) with false. cbv iota. f_equal; lia.
    + exact H2.
Qed.
Lemma filt_ext c n x y f : (forall k, k < n -> x k = y k) -> filt_inv c n x f -> filt_inv c n y f.
Proof.
  intros E (H0 & H1 & H2). unfold filt_inv. rewrite <- (samples_ext c x y n E). split; [|split; [|exact H2]].
  - rewrite H0. destruct (Nat.ltb_spec n 1); [reflexivity|]. apply E. lia.
  - rewrite H1. destruct (Nat.ltb_spec n 2); [reflexivity|]. apply E. lia.
Qed.
Lemma of_snoc f is (i : i2c_in) k : k < length is -> nth k (map f (is ++ [i])) true = nth k (map f is) true.
Proof. intros H. rewrite map_app, app_nth1; [reflexivity|]. rewrite map_length; exact H. Qed.
Lemma of_last f is (i : i2c_in) : nth (length is) (map f (is ++ [i])) true = f i.
Proof. rewrite map_app, app_nth2; rewrite map_length; [|lia]. rewrite Nat.sub_diag. reflexivity. Qed.

Lemma cnt_step c n f : c < 2 ^ 16 -> f = c - n mod (c + 1) -> (f =? 0) = (S n mod (c + 1) =? 0) /\ (if f =? 0 then c else wdec 16 f) = c - S n mod (c + 1).
Proof.
  intros Hc ->. pose proof (Nat.mod_upper_bound n (c + 1) ltac:(lia)) as B.
  assert (M : S n mod (c + 1) = if n mod (c + 1) =? c then 0 else n mod (c + 1) + 1).
  { replace (S n) with (n + 1) by lia. rewrite <- Nat.add_mod_idemp_l by lia. destruct (Nat.eqb_spec (n mod (c + 1)) c) as [E|E].
    - rewrite E. apply Nat.mod_same. lia. - apply Nat.mod_small. lia. }
  rewrite M. revert B. generalize (n mod (c + 1)) as r. intros r B. destruct (Nat.eqb_spec r c) as [->|E].
  - rewrite Nat.sub_diag. cbn. split; [reflexivity|lia].
  - destruct (Nat.eqb_spec (c - r) 0); [lia|]. destruct (Nat.eqb_spec (r + 1) 0); [lia|]. split; [reflexivity|]. rewrite wdec_pos; lia.
Qed.

Definition line_inv (c : nat) (is : list i2c_in) (s : i2c) : Prop :=
  s_fcnt s = c - length is mod (c + 1) /\ filt_inv c (length is) (scl_of is) (s_fscl s) /\ filt_inv c (length is) (sda_of is) (s_fsda s) /\
  s_lscl s = before (clean c (scl_of is)) (length is) /\ s_lsda s = before (clean c (sda_of is)) (length is) /\ s_chk s = false.
Lemma lines c is : c < 2 ^ 16 -> Forall (fun i => i_cnt i = c) is -> line_inv c is (final i2c_step (i2c_init c) is).
Proof.
  intros Hc. induction is as [|i is IH] using rev_ind; intros F.
  - unfold line_inv. cbn [length before final run fst]. rewrite Nat.mod_0_l by lia. cbn. unfold filt_inv. cbn. repeat split. lia.
  - apply Forall_app in F as [F Fi]. inversion Fi as [|? ? Hi _]; subst. destruct (IH F) as (H1 & H2 & H3 & H4 & H5 & H6). rewrite final_snoc.
    destruct (cnt_step _ (length is) _ Hc H1) as [T1 T2]. unfold line_inv. rewrite app_length. cbn [length]. rewrite Nat.add_1_r.
    set (s := final i2c_step (i2c_init (i_cnt i)) is) in *. unfold i2c_step. cbn [fst s_fcnt s_fscl s_fsda s_lscl s_lsda s_chk before].
    split; [exact T2|]. split; [|split; [|split; [|split]]].
    + apply filt_step; [|exact T1|apply of_last]. apply (filt_ext _ _ (scl_of is)); [|exact H2]. intros k Hk. unfold scl_of. rewrite of_snoc; auto.
    + apply filt_step; [|exact T1|apply of_last]. apply (filt_ext _ _ (sda_of is)); [|exact H3]. intros k Hk. unfold sda_of. rewrite of_snoc; auto.
    + rewrite (filtered_clean _ _ _ _ H2). apply (clean_ext _ _ _ _ (length is)); [lia|]. intros k Hk. unfold scl_of. rewrite of_snoc; auto.
    + rewrite (filtered_clean _ _ _ _ H3). apply (clean_ext _ _ _ _ (length is)); [lia|]. intros k Hk. unfold sda_of. rewrite of_snoc; auto.
    + rewrite H6. destruct (s_al s); reflexivity.
Qed.

Lemma i2c_dout c is i j : c < 2 ^ 16 -> Forall (fun i => i_cnt i = c) is ->
  o_dout (snd (i2c_step (final i2c_step (i2c_init c) (is ++ [i])) j)) =
  negb (before (clean c (scl_of is)) (length is)) && clean c (scl_of is) (length is).
Proof.
  intros Hc F. destruct (lines c is Hc F) as (_ & H2 & _ & H4 & _). rewrite final_snoc. cbn. rewrite H4, (filtered_clean _ _ _ _ H2). reflexivity.
Qed.
Lemma i2c_al c is i j : c < 2 ^ 16 -> Forall (fun i => i_cnt i = c) is -> let s := final i2c_step (i2c_init c) is in
  o_al (snd (i2c_step (final i2c_step (i2c_init c) (is ++ [i])) j)) = true <->
  s_st s = idle /\ clean c (scl_of is) (length is) = true /\ before (clean c (sda_of is)) (length is) = false /\
  clean c (sda_of is) (length is) = true /\ s_cstop s = false.
Proof.
  intros Hc F s. destruct (lines c is Hc F) as (_ & H2 & H3 & H4 & H5 & H6). rewrite final_snoc. fold s in H2, H3, H4, H5, H6 |- *. unfold i2c_step. cbn [fst snd o_al s_al].
  rewrite H5, H6, (filtered_clean _ _ _ _ H2), (filtered_clean _ _ _ _ H3). cbn [andb orb].
  destruct (s_st s); try (split; [discriminate|intros (E & _); discriminate]).
  destruct (clean c (scl_of is) (length is)), (before (clean c (sda_of is)) (length is)), (clean c (sda_of is) (length is)), (s_cstop s); cbn; intuition discriminate.
Qed.

(** glitches *)
Lemma glitch_samples c x : 2 <= c -> only_glitches c x -> forall n,
  majority (samples c x n) = true /\
  (forall k b, nth_error (firstn 3 (samples c x n)) k = Some b -> b = false -> exists t, x t = false /\ (t + 3) mod (c + 1) = 0 /\ t + 3 <= n /\ n < t + 3 + (k + 1) * (c + 1)) /\
  (forall k k' , nth_error (firstn 3 (samples c x n)) k = Some false -> nth_error (firstn 3 (samples c x n)) k' = Some false -> k = k').
Proof.
  intros Hc G n.
  assert (A : forall n k b, nth_error (firstn 3 (samples c x n)) k = Some b -> b = false ->
    exists t, x t = false /\ (t + 3) mod (c + 1) = 0 /\ t + 3 <= n /\ n < t + 3 + (k + 1) * (c + 1) /\ t + 3 + k * (c + 1) <= n).
  { clear n. induction n as [|n IH]; intros k b H Hb.
    - cbn in H. destruct k as [|[|[|[|?]]]]; cbn in H; congruence.
    - cbn [samples] in H. destruct (Nat.eqb_spec (S n mod (c + 1)) 0) as [E|E].
      + destruct k as [|k].
        * cbn [firstn nth_error] in H. destruct (Nat.ltb_spec n 2) as [L|L].
          -- exfalso. rewrite Nat.mod_small in E by lia. lia.
          -- exists (n - 2). replace (n - 2 + 3) with (S n) by lia. rewrite E. injection H as H. split; [congruence|]. lia.
        * assert (Hk : nth_error (firstn 3 (samples c x n)) k = Some b).
          { destruct (samples_three c x n) as (p & q & r & l & E3). rewrite E3 in *. cbn [firstn] in *.
            destruct k as [|[|[|k]]]; cbn [nth_error] in *; try exact H; discriminate. }
          destruct (IH k b Hk Hb) as (t & T1 & T2 & T3 & T4 & T5). exists t. split; [exact T1|]. split; [exact T2|].
          apply Nat.mod_divide in E; [|lia]. apply Nat.mod_divide in T2; [|lia]. destruct E as [a Ea]. destruct T2 as [d Ed].
          rewrite Ea, Ed in *. clear - T3 T4 T5 Ea. assert (E : a = d + k + 1) by nia. subst a. nia.
      + destruct (IH k b H Hb) as (t & T1 & T2 & T3 & T4 & T5). exists t. split; [exact T1|]. split; [exact T2|]. split; [lia|]. split; [|lia].
        destruct (Nat.eq_dec (S n) (t + 3 + (k + 1) * (c + 1))) as [E2|]; [|lia]. exfalso. apply E. rewrite E2. rewrite Nat.mod_add by lia. exact T2. }
  assert (U : forall k k', nth_error (firstn 3 (samples c x n)) k = Some false -> nth_error (firstn 3 (samples c x n)) k' = Some false -> k = k').
  { assert (U' : forall k k', k < k' -> nth_error (firstn 3 (samples c x n)) k = Some false -> nth_error (firstn 3 (samples c x n)) k' = Some false -> False).
    { intros k k' L H1 H2. assert (k' < 3) by (apply (Nat.lt_le_trans _ (length (firstn 3 (samples c x n)))); [apply nth_error_Some; congruence|rewrite firstn_length; lia]).
      destruct (A n k false H1 eq_refl) as (t & T1 & T2 & T3 & T4 & T5). destruct (A n k' false H2 eq_refl) as (u & U1 & U2 & U3 & U4 & U5).
      apply Nat.mod_divide in T2; [|lia]. apply Nat.mod_divide in U2; [|lia]. destruct T2 as [a Ea]. destruct U2 as [d Ed].
      assert (u < t) by (clear -T4 U5 L; nia).
      destruct (G u t H0 U1 T1) as [B|B].
      - assert (t - u = (a - d) * (c + 1)) by nia. assert (d < a) by nia. nia.
      - assert (t - u = (a - d) * (c + 1)) by nia. assert (a <= d + 2); [|nia].
        assert (k = 0 /\ k' = 1 \/ k = 1 /\ k' = 2 \/ k = 0 /\ k' = 2) as [[-> ->]|[[-> ->]|[-> ->]]] by lia; nia. }
    intros k k' H1 H2. destruct (Nat.lt_trichotomy k k') as [L|[L|L]]; [exfalso; eapply U'; eauto|exact L|exfalso; eapply U'; eauto]. }
  split; [|split; [|exact U]].
  - unfold majority. destruct (samples_three c x n) as (p & q & r & l & E). rewrite E in *. cbn [firstn] in *.
    pose proof (U 0 1) as U1. pose proof (U 0 2) as U2. pose proof (U 1 2) as U3. cbn in U1, U2, U3.
    destruct p, q, r; try reflexivity; exfalso; first [specialize (U1 eq_refl eq_refl); discriminate|specialize (U2 eq_refl eq_refl); discriminate|specialize (U3 eq_refl eq_refl); discriminate].
  - intros k b H Hb. destruct (A n k b H Hb) as (t & T1 & T2 & T3 & T4 & _). exists t. auto.
Qed.
Lemma glitch_clean c x n : 2 <= c -> only_glitches c x -> clean c x n = true.
Proof. intros H G. apply (glitch_samples c x H G n). Qed.

Lemma i2c_glitch c is : 2 <= c -> c < 2 ^ 16 -> Forall (fun i => i_cnt i = c) is -> only_glitches c (scl_of is) -> only_glitches c (sda_of is) ->
  Forall (fun o => o_al o = false /\ o_dout o = false) (outs i2c_step (i2c_init c) is).
Proof.
  intros H2 Hc F GS GD.
  assert (K : forall n p q, is = p ++ q -> length p = n -> Forall (fun o => o_al o = false /\ o_dout o = false) (outs i2c_step (i2c_init c) p)).
  { intros n. induction n as [|n IH]; intros p q E L.
    - destruct p; [constructor|discriminate].
    - destruct (exists_last (l := p)) as (p' & j & ->); [intros ->; discriminate|]. rewrite app_length in L. cbn [length] in L.
      assert (Hp : Forall (fun o => o_al o = false /\ o_dout o = false) (outs i2c_step (i2c_init c) p')).
      { apply (IH p' (j :: q)); [rewrite E, <- app_assoc; reflexivity|lia]. }
      rewrite outs_snoc. apply Forall_app. split; [exact Hp|]. constructor; [|constructor].
      destruct p' as [|i0 p'0] eqn:Ep; [split; reflexivity|]. rewrite <- Ep in *. destruct (exists_last (l := p')) as (p2 & i & Ep2); [subst; discriminate|].
      rewrite Ep2 in *. assert (F2 : Forall (fun i => i_cnt i = c) p2) by (rewrite E, <- !app_assoc in F; apply Forall_app in F as [F _]; exact F).
      assert (XS : forall k, k < length p2 -> scl_of is k = scl_of p2 k).
      { intros k Hk. unfold scl_of. rewrite E, <- !app_assoc, map_app, app_nth1; [reflexivity|rewrite map_length; lia]. }
      assert (XD : forall k, k < length p2 -> sda_of is k = sda_of p2 k).
      { intros k Hk. unfold sda_of. rewrite E, <- !app_assoc, map_app, app_nth1; [reflexivity|rewrite map_length; lia]. }
      assert (CS : forall m, m <= length p2 -> clean c (scl_of p2) m = true).
      { intros m Hm. rewrite <- (clean_ext c _ _ m _ Hm XS). apply glitch_clean; assumption. }
      assert (CD : forall m, m <= length p2 -> clean c (sda_of p2) m = true).
      { intros m Hm. rewrite <- (clean_ext c _ _ m _ Hm XD). apply glitch_clean; assumption. }
      assert (BS : before (clean c (scl_of p2)) (length p2) = true) by (destruct (length p2) as [|m] eqn:Em; [reflexivity|apply CS; lia]).
      assert (BD : before (clean c (sda_of p2)) (length p2) = true) by (destruct (length p2) as [|m] eqn:Em; [reflexivity|apply CD; lia]).
      split.
      + apply not_true_is_false. intros T. apply (i2c_al c p2 i j Hc F2) in T as (_ & _ & T & _). congruence.
      + rewrite (i2c_dout c p2 i j Hc F2), BS. reflexivity. }
  apply (K (length is) is []); [rewrite app_nil_r; reflexivity|reflexivity].
Qed.

(** SDA changes with SCL released only in start and stop conditions *)
Section Safe.
  Context (c : nat).
  Local Notation fin := (final i2c_step (i2c_init c)).
  Definition safe_inv (s : i2c) (x : i2c_in) : Prop :=
    s_chk s = false /\
    match s_st s with
    | idle => s_scl s = false -> s_sda s = false
    | start_ n => i_cmd x = START /\ n <= 4 /\ (n = 0 -> s_scl s = false -> s_sda s = false) /\ (n = 1 \/ n = 2 -> s_sda s = false) /\ (2 <= n -> s_scl s = false) /\ (3 <= n -> s_sda s = true)
    | stop_ n => i_cmd x = STOP /\ n <= 3 /\ (n <= 1 -> s_scl s = true) /\ (1 <= n -> s_sda s = true) /\ (2 <= n -> s_scl s = false)
    | rd_ n => i_cmd x = READ /\ n <= 3 /\ (n <= 1 -> s_scl s = true) /\ (1 <= n -> s_sda s = false) /\ (2 <= n -> s_scl s = false)
    | wr_ n => i_cmd x = WRITE /\ n <= 3 /\ (n <= 1 -> s_scl s = true) /\ (1 <= n -> s_sda s = negb (i_din x)) /\ (2 <= n -> s_scl s = false)
    end /\
    (s_al s = true -> match s_st s with idle | start_ 0 | stop_ 0 | rd_ 0 | wr_ 0 => True | _ => False end).

  Lemma safe_step s x y : safe_inv s x ->
    (i_cmd x <> NOP -> s_st s <> idle -> i_cmd y = i_cmd x /\ i_din y = i_din x) ->
    (s_st s = idle -> i_cmd y = STOP \/ i_cmd y = READ \/ i_cmd y = WRITE -> s_scl s = true) ->
    safe_inv (fst (i2c_step s y)) y /\
    (s_scl s = false -> s_scl (fst (i2c_step s y)) = false ->
     s_sda s = s_sda (fst (i2c_step s y)) \/ i_cmd y = START /\ s_sda s = false /\ s_sda (fst (i2c_step s y)) = true \/
     i_cmd y = STOP /\ s_sda s = true /\ s_sda (fst (i2c_step s y)) = false).
  Proof.
    intros (C & I & A) HH HI. unfold safe_inv, i2c_step. cbn [fst s_chk s_st s_scl s_sda s_al]. rewrite C. cbn [andb orb].
    destruct (s_al s) eqn:AL.
    - specialize (A eq_refl). split.
      + split; [reflexivity|]. destruct (s_st s) as [|n|n|n|n]; cbn; (split; [auto|auto]).
      + cbn. intros S _. destruct (s_st s) as [|n|n|n|n]; [rewrite I by assumption; auto|..]; (destruct n; [|contradiction]).
        * destruct I as (_ & _ & I & _). rewrite I; auto.
        * destruct I as (_ & _ & I & _). rewrite I in S; [discriminate|lia].
        * destruct I as (_ & _ & I & _). rewrite I in S; [discriminate|lia].
        * destruct I as (_ & _ & I & _). rewrite I in S; [discriminate|lia].
    - clear A. destruct (s_st s) as [|n|n|n|n] eqn:ST.
      + clear HH. specialize (HI eq_refl). unfold st_next, scl_next, sda_next.
        destruct (Nat.eqb_spec (i_cmd y) NOP); [split; [split; [reflexivity|split; [exact I|auto]]|auto]|].
        destruct (Nat.eqb_spec (i_cmd y) START); [split; [split; [reflexivity|split; [|auto]]|auto]; repeat split; auto; lia|].
        destruct (Nat.eqb_spec (i_cmd y) STOP) as [E|]; [split; [split; [reflexivity|split; [|auto]]|auto]; specialize (HI (or_introl E)); repeat split; auto; lia|].
        destruct (Nat.eqb_spec (i_cmd y) WRITE) as [E|]; [split; [split; [reflexivity|split; [|auto]]|auto]; specialize (HI (or_intror (or_intror E))); repeat split; auto; lia|].
        destruct (Nat.eqb_spec (i_cmd y) READ) as [E|]; [split; [split; [reflexivity|split; [|auto]]|auto]; specialize (HI (or_intror (or_introl E))); repeat split; auto; lia|].
        split; [split; [reflexivity|split; [exact I|auto]]|auto].
      + destruct I as (E & N & I1 & I2 & I3 & I4). destruct HH as [E1 E2]; [rewrite E; discriminate|discriminate|]. rewrite E in E1.
        destruct n as [|[|[|[|[|n]]]]]; [..|lia]; cbn; (split; [split; [reflexivity|split; [|congruence]]|]); repeat split; intros; auto; try lia; try congruence; try (rewrite ?I1, ?I2, ?I3, ?I4 by (auto; lia); auto).
      + destruct I as (E & N & I1 & I2 & I3). destruct HH as [E1 E2]; [rewrite E; discriminate|discriminate|]. rewrite E in E1.
        destruct n as [|[|[|[|n]]]]; [..|lia]; cbn; (split; [split; [reflexivity|split; [|congruence]]|]); repeat split; intros; auto; try lia; try congruence;
          try (rewrite I1 in * by lia; discriminate); try (rewrite ?I1, ?I2, ?I3 by (auto; lia); auto).
      + destruct I as (E & N & I1 & I2 & I3). destruct HH as [E1 E2]; [rewrite E; discriminate|discriminate|]. rewrite E in E1.
        destruct n as [|[|[|[|n]]]]; [..|lia]; cbn; (split; [split; [reflexivity|split; [|congruence]]|]); repeat split; intros; auto; try lia; try congruence;
          try (rewrite I1 in * by lia; discriminate); try (rewrite ?I1, ?I2, ?I3 by (auto; lia); auto).
      + destruct I as (E & N & I1 & I2 & I3). destruct HH as [E1 E2]; [rewrite E; discriminate|discriminate|]. rewrite E in E1.
        destruct n as [|[|[|[|n]]]]; [..|lia]; cbn; (split; [split; [reflexivity|split; [|congruence]]|]); repeat split; intros; auto; try lia; try congruence;
          try (rewrite I1 in * by lia; discriminate); try (rewrite ?I1, ?I2, ?I3, ?E2 by (auto; lia); auto).
  Qed.
  Lemma ack_idle s x : o_rd (snd (i2c_step s x)) = true -> s_st (fst (i2c_step s x)) = idle.
  Proof.
    unfold i2c_step. cbn [fst snd o_rd s_st]. unfold ack. intros H. apply andb_prop in H as [H1 H2]. apply negb_true_iff in H1. rewrite H1.
    destruct (s_st s) as [|n|n|n|n]; try discriminate; destruct n as [|[|[|[|[|n]]]]]; try discriminate; reflexivity.
  Qed.
  Lemma safe_all is : polite c is -> forall p q d, is = p ++ q -> safe_inv (fin p) (last p d).
  Proof.
    intros [P1 P2] p. induction p as [|y p IH] using rev_ind; intros q d E.
    - unfold safe_inv. cbn. auto.
    - rewrite <- app_assoc in E. cbn [app] in E. specialize (IH (y :: q) d E). rewrite final_snoc, last_last. apply (safe_step (fin p) (last p d) y IH).
      + destruct p as [|x p] using rev_ind; [cbn; congruence|]. clear IHp. rewrite last_last. intros NC NI.
        apply (P2 p x y q); [rewrite E, <- app_assoc; reflexivity|exact NC|]. apply not_true_is_false. intros T. apply NI. rewrite final_snoc. apply ack_idle, T.
      + intros I. exact (P1 p y q E I).
  Qed.
  Lemma i2c_safe is : polite c is -> forall p x y q, is = p ++ x :: y :: q ->
    let o1 := snd (i2c_step (fin p) x) in let o2 := snd (i2c_step (fin (p ++ [x])) y) in
    o_scl o1 = false -> o_scl o2 = false ->
    o_sda o1 = o_sda o2 \/ i_cmd x = START /\ o_sda o1 = false /\ o_sda o2 = true \/ i_cmd x = STOP /\ o_sda o1 = true /\ o_sda o2 = false.
  Proof.
    intros P p x y q E o1 o2. change (o_scl o1) with (s_scl (fin p)). change (o_sda o1) with (s_sda (fin p)).
    change (o_scl o2) with (s_scl (fin (p ++ [x]))). change (o_sda o2) with (s_sda (fin (p ++ [x]))). rewrite final_snoc.
    apply (safe_step (fin p) (last p x) x (safe_all is P p (x :: y :: q) x E)).
    - destruct P as [P1 P2]. destruct p as [|z p] using rev_ind; [cbn; congruence|]. clear IHp. rewrite last_last. intros NC NI.
      apply (P2 p z x (y :: q)); [rewrite E, <- app_assoc; reflexivity|exact NC|]. apply not_true_is_false. intros T. apply NI. rewrite final_snoc. apply ack_idle, T.
    - destruct P as [P1 P2]. intros I. exact (P1 p x (y :: q) E I).
  Qed.
End Safe.

Lemma i2c_release s i j : o_al (snd (i2c_step s i)) = true -> let o := snd (i2c_step (fst (i2c_step s i)) j) in
  o_rd (snd (i2c_step s i)) = false /\ o_scl o = false /\ o_sda o = false /\ s_st (fst (i2c_step s i)) = idle.
Proof.
  cbn. intros H. unfold st_next, scl_next, sda_next, ack. rewrite H. repeat split; try reflexivity. destruct (s_st s); reflexivity.
Qed.
