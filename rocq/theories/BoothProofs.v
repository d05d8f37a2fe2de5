From Coq Require Import Lia.
From Verif Require Import Base BaseFacts StreamSpec StreamFacts BoothModel BoothSpec.
Open Scope Z_scope.

Lemma p2_S k : p2 (S k) = 2 * p2 k.
Proof. unfold p2. rewrite Nat2Z.inj_succ, Z.pow_succ_r by lia. reflexivity. Qed.
Lemma p2_0 : p2 0 = 1. Proof. reflexivity. Qed.
Lemma p2_pos k : 0 < p2 k. Proof. unfold p2. apply Z.pow_pos_nonneg; lia. Qed.
Lemma p2_add j k : p2 (j + k) = p2 j * p2 k.
Proof. unfold p2. rewrite Nat2Z.inj_add, Z.pow_add_r by lia. reflexivity. Qed.

Lemma as_signed_S n v : as_signed (S n) v = if v <? p2 n then v else v - 2 * p2 n.
Proof.
  unfold as_signed. replace (Z.of_nat (S n) - 1) with (Z.of_nat n) by lia. fold (p2 n). fold (p2 (S n)).
  rewrite p2_S. reflexivity.
Qed.

Lemma signed_range n v : 0 <= v < p2 (S n) -> - p2 n <= as_signed (S n) v < p2 n.
Proof. rewrite as_signed_S, p2_S. intros. destruct (Z.ltb_spec v (p2 n)); lia. Qed.

(** a signed value in range is recovered from its residue *)
Lemma signed_mod n z : - p2 n <= z < p2 n -> as_signed (S n) (z mod p2 (S n)) = z.
Proof.
  intros H. rewrite as_signed_S, p2_S. pose proof (p2_pos n).
  destruct (Z.ltb_spec z 0).
  - replace (z mod (2 * p2 n)) with (z + 2 * p2 n).
    + destruct (Z.ltb_spec (z + 2 * p2 n) (p2 n)); lia.
    + apply Z.mod_unique with (-1); [left|]; lia.
  - rewrite Z.mod_small by lia. destruct (Z.ltb_spec z (p2 n)); lia.
Qed.

Lemma signed_cong n v : exists k, as_signed (S n) v = v + k * p2 (S n).
Proof.
  rewrite as_signed_S, p2_S. destruct (v <? p2 n); [exists 0|exists (-1)]; lia.
Qed.

(** the bit of the multiplier before bit [i], and the number made of its lowest [i] bits in two's complement *)
Definition prevbit (i : nat) (y : Z) : bool := match i with O => false | S j => Z.odd (y / p2 j) end.
Definition part (i : nat) (y : Z) : Z := y mod p2 i - (if prevbit i y then p2 i else 0).

Lemma mod_p2_S y i : y mod p2 (S i) = y mod p2 i + (if Z.odd (y / p2 i) then p2 i else 0).
Proof.
  rewrite p2_S, Z.mul_comm. pose proof (p2_pos i). rewrite Z.rem_mul_r by lia.
  rewrite Zmod_odd. destruct (Z.odd (y / p2 i)); lia.
Qed.

Lemma part_S i y : part (S i) y = part i y + (if prevbit i y then p2 i else 0) - (if Z.odd (y / p2 i) then p2 i else 0).
Proof.
  unfold part. cbn [prevbit]. rewrite mod_p2_S, p2_S. destruct (prevbit i y), (Z.odd (y / p2 i)); lia.
Qed.

Lemma part_sign i y : (if prevbit i y then - p2 i <= 2 * part i y < 0 else 0 <= 2 * part i y < p2 i).
Proof.
  unfold part. destruct i as [|i]; [cbn [prevbit]; rewrite p2_0, Z.mod_1_r; lia|].
  cbn [prevbit]. rewrite mod_p2_S. pose proof (Z.mod_pos_bound y (p2 i) (p2_pos i)).
  rewrite p2_S. destruct (Z.odd (y / p2 i)); lia.
Qed.

Lemma part_full n y : 0 <= y < p2 (S n) -> part (S n) y = as_signed (S n) y.
Proof.
  intros H. unfold part. rewrite (Z.mod_small y) by lia. rewrite as_signed_S. cbn [prevbit].
  rewrite p2_S in *. pose proof (p2_pos n).
  destruct (Z.ltb_spec y (p2 n)) as [L|L].
  - rewrite Z.div_small by lia. cbn. lia.
  - replace (y / p2 n) with 1; [cbn; lia|]. apply Z.div_unique with (y - p2 n); lia.
Qed.

(** the state after [i] of the steps of the multiplication of [x] and [y], DATA_WIDTH = S n *)
Record calc (n i : nat) (x y : Z) (s : bo_st) : Prop := mk_calc {
  c_a : 0 <= b_a s < p2 (S n);
  c_m : b_m s = x;
  c_q : 0 <= b_q s < p2 (S n);
  c_q1 : b_q1 s = prevbit i y;
  c_hi : 0 <= b_q s - y / p2 i;
  c_eq : as_signed (S n) (b_a s) * p2 (S n) + (b_q s - y / p2 i) = as_signed (S n) x * part i y * p2 (S n - i)
}.

Lemma calc_step n i x y s (x' := bo_sum (S n) (bo_sel (b_q s) (b_q1 s)) (b_a s) (b_m s)) c w :
  (i <= n)%nat -> 0 <= x < p2 (S n) -> x <> p2 n -> 0 <= y < p2 (S n) -> calc n i x y s ->
  calc n (S i) x y (mk_bo (bo_asr (S n) x') (b_m s) (bo_shq (S n) x' (b_q s)) (Z.odd (b_q s)) c w).
Proof.
  intros Hi Hx Hx' Hy [Ha Hm Hq Hq1 Hhi Heq].
  pose proof (p2_pos n) as Pn. pose proof (p2_pos i) as Pi. pose proof (p2_pos (n - i)) as Pni.
  set (M := as_signed (S n) x) in *. set (A := as_signed (S n) (b_a s)) in *.
  assert (HM : - p2 n < M < p2 n).
  { unfold M. rewrite as_signed_S. rewrite p2_S in Hx. destruct (Z.ltb_spec x (p2 n)); lia. }
  assert (HA : - p2 n <= A < p2 n) by (apply signed_range; exact Ha).
  replace (S n - i)%nat with (S (n - i)) in Heq by lia. rewrite (p2_S n), (p2_S (n - i)) in Heq.
  set (H := b_q s - y / p2 i) in *.
  assert (Hdiv : exists h, H = 2 * h).
  { exists (M * part i y * p2 (n - i) - A * p2 n). lia. }
  destruct Hdiv as [h Hh].
  assert (Hodd : Z.odd (b_q s) = Z.odd (y / p2 i)).
  { replace (b_q s) with (y / p2 i + 2 * h) by (unfold H in *; lia). rewrite Z.odd_add_mul_2. reflexivity. }
  set (d := bo_sel (b_q s) (b_q1 s)) in *.
  assert (Hd : d = (if prevbit i y then 1 else 0) - (if Z.odd (y / p2 i) then 1 else 0)).
  { unfold d, bo_sel. rewrite Hodd, Hq1. destruct (Z.odd (y / p2 i)), (prevbit i y); reflexivity. }
  set (X := A + d * M).
  assert (Hsplit : p2 n = p2 i * p2 (n - i)) by (rewrite <- p2_add; f_equal; lia).
  (* the sum does not overflow *)
  assert (HX : - p2 n <= X < p2 n).
  { unfold X. pose proof (part_sign i y) as Hs. rewrite p2_S in Hq.
    assert (Hlo : 0 <= H < 2 * p2 n).
    { assert (0 <= y / p2 i) by (apply Z.div_pos; lia). unfold H in *; lia. }
    rewrite Hd. clear X Hd x' Hodd. clear d. clearbody H. set (P := part i y) in *. clearbody P.
    set (r := p2 (n - i)) in *. set (e := p2 i) in *. clearbody r e A M.
    assert (E : A * p2 n + h = M * (P * r)) by lia.
    destruct (prevbit i y), (Z.odd (y / e)); try lia.
    - assert (B : - p2 n <= 2 * (P * r) <= 0) by nia. set (Q := P * r) in *. clearbody Q.
      assert (0 <= h < p2 n) by lia.
      destruct (Z.le_ge_cases 0 M).
      + assert (M * Q <= 0) by nia. assert (A * p2 n <= 0) by lia. assert (A <= 0) by nia. lia.
      + assert (0 <= M * Q) by nia. assert (- p2 n < A * p2 n) by lia. assert (-1 < A) by nia. lia.
    - assert (B : 0 <= 2 * (P * r) <= p2 n) by nia. set (Q := P * r) in *. clearbody Q.
      assert (0 <= h < p2 n) by lia.
      destruct (Z.le_ge_cases 0 M).
      + assert (0 <= M * Q) by nia. assert (- p2 n < A * p2 n) by lia. assert (-1 < A) by nia. lia.
      + assert (M * Q <= 0) by nia. assert (A * p2 n <= 0) by lia. assert (A <= 0) by nia. lia. }
  assert (Hx1 : as_signed (S n) x' = X /\ 0 <= x' < p2 (S n)).
  { split; [|apply Z.mod_pos_bound, p2_pos]. rewrite <- (signed_mod n X HX). f_equal. unfold x', bo_sum.
    destruct (signed_cong n (b_a s)) as [k1 E1]. destruct (signed_cong n x) as [k2 E2].
    fold A in E1. fold M in E2. unfold X. rewrite E1, E2, Hm.
    replace (b_a s + k1 * p2 (S n) + d * (x + k2 * p2 (S n))) with (b_a s + d * x + (k1 + d * k2) * p2 (S n)) by ring.
    rewrite Z_mod_plus_full. reflexivity. }
  destruct Hx1 as [Hx1 Hx2].
  assert (Hasr : as_signed (S n) (bo_asr (S n) x') = X / 2).
  { unfold bo_asr. replace (S n - 1)%nat with n by lia. rewrite as_signed_S in Hx1. rewrite p2_S at 1. rewrite Hx1.
    apply signed_mod. split; [apply Z.div_le_lower_bound|apply Z.div_lt_upper_bound]; lia. }
  assert (Hpar : x' mod 2 = X mod 2).
  { destruct (signed_cong n x') as [k E]. rewrite Hx1 in E. rewrite E, p2_S.
    replace (x' + k * (2 * p2 n)) with (x' + (k * p2 n) * 2) by ring. rewrite Z_mod_plus_full. reflexivity. }
  assert (Hyd : y / p2 (S i) = (y / p2 i) / 2).
  { rewrite p2_S, Z.mul_comm, <- Z.div_div by lia. reflexivity. }
  assert (Hqd : b_q s / 2 = h + y / p2 (S i)).
  { rewrite Hyd. replace (b_q s) with (y / p2 i + h * 2) by (unfold H in *; lia). rewrite Z.div_add by lia. lia. }
  pose proof (Z.mod_pos_bound X 2 ltac:(lia)) as HX2.
  pose proof (Z.div_mod X 2 ltac:(lia)) as HXd.
  constructor; cbn [b_a b_m b_q b_q1].
  - apply Z.mod_pos_bound, p2_pos.
  - exact Hm.
  - unfold bo_shq. replace (S n - 1)%nat with n by lia. rewrite Hpar. rewrite p2_S in *.
    assert (0 <= b_q s / 2 < p2 n) by (split; [apply Z.div_pos|apply Z.div_lt_upper_bound]; lia). nia.
  - exact Hodd.
  - unfold bo_shq. replace (S n - 1)%nat with n by lia. rewrite Hpar, Hqd. nia.
  - rewrite Hasr. unfold bo_shq. replace (S n - 1)%nat with n by lia. rewrite Hpar, Hqd. fold M.
    replace (S n - S i)%nat with (n - i)%nat by lia. rewrite part_S, p2_S.
    assert (E : A * p2 n + h = M * part i y * p2 (n - i)) by lia.
    assert (Hd2 : (if prevbit i y then p2 i else 0) - (if Z.odd (y / p2 i) then p2 i else 0) = d * p2 i).
    { rewrite Hd. destruct (prevbit i y), (Z.odd (y / p2 i)); lia. }
    replace (part i y + (if prevbit i y then p2 i else 0) - (if Z.odd (y / p2 i) then p2 i else 0))
      with (part i y + d * p2 i) by lia.
    replace (M * (part i y + d * p2 i) * p2 (n - i)) with (M * part i y * p2 (n - i) + d * M * (p2 i * p2 (n - i))) by ring.
    rewrite <- Hsplit, <- E.
    replace (X / 2 * (2 * p2 n) + (X mod 2 * p2 n + (h + y / p2 (S i)) - y / p2 (S i)))
      with ((2 * (X / 2) + X mod 2) * p2 n + h) by ring.
    rewrite <- HXd. unfold X. ring.
Qed.

Lemma calc_start n x y s : 0 <= x < p2 (S n) -> 0 <= y < p2 (S n) ->
  b_a s = 0 -> b_m s = x -> b_q s = y -> b_q1 s = false -> calc n 0 x y s.
Proof.
  intros Hx Hy Ha Hm Hq H1. pose proof (p2_pos (S n)). pose proof (p2_pos n).
  constructor; rewrite ?H1, ?Ha, ?Hm, ?Hq; try lia; try reflexivity; try exact Hy; rewrite p2_0, Z.div_1_r; try lia.
  unfold part. rewrite p2_0, Z.mod_1_r. cbn [prevbit].
  rewrite as_signed_S. destruct (Z.ltb_spec 0 (p2 n)); lia.
Qed.

Lemma calc_end n x y s : 0 <= x < p2 (S n) -> 0 <= y < p2 (S n) -> calc n (S n) x y s ->
  as_signed (2 * S n) (b_a s * p2 (S n) + b_q s) = as_signed (S n) x * as_signed (S n) y.
Proof.
  intros Hx Hy [Ha _ Hq _ _ Heq]. rewrite Nat.sub_diag, p2_0, Z.mul_1_r, (part_full n y Hy) in Heq.
  rewrite (Z.div_small y) in Heq by exact Hy. rewrite Z.sub_0_r in Heq. rewrite <- Heq.
  replace (2 * S n)%nat with (S (n + S n)) by lia. rewrite !as_signed_S, p2_add.
  pose proof (p2_pos n). set (b := b_q s) in *. set (a := b_a s) in *. clearbody a b. clear Heq s.
  set (w := p2 (S n)) in *. assert (Hw : w = 2 * p2 n) by (unfold w; apply p2_S). clearbody w.
  destruct (Z.ltb_spec a (p2 n)); destruct (Z.ltb_spec (a * w + b) (p2 n * w)); try nia.
Qed.

(** one cycle of the whole component *)
Definition pend (n : nat) (s : bo_st) (p : list Z) : Prop :=
  if b_wait s then
    (b_cnt s <= S n)%nat /\
    exists x y, 0 <= x < p2 (S n) /\ 0 <= y < p2 (S n) /\ x <> p2 n /\ p = [as_signed (S n) x * as_signed (S n) y] /\
      calc n (S n - b_cnt s) x y s
  else b_cnt s = 0%nat /\ p = [].

Definition good_in (n : nat) (i : bo_in) : Prop := bo_vec n i /\ oi_a i <> 2 ^ (Z.of_nat n - 1).

Lemma pend_step n s i p : pend n s p -> good_in (S n) i ->
  exists p', pend n (fst (bo_step (S n) s i)) p' /\
    p ++ map (fun o => as_signed (S n) (fst o) * as_signed (S n) (snd o)) (acc1 (bo_obs (i, snd (bo_step (S n) s i)))) =
      map (as_signed (2 * S n)) (del1 (bo_obs (i, snd (bo_step (S n) s i)))) ++ p'.
Proof.
  intros Hp [[Hx Hy] Hm]. fold (p2 (S n)) in Hx, Hy. replace (Z.of_nat (S n) - 1) with (Z.of_nat n) in Hm by lia. fold (p2 n) in Hm.
  unfold pend in Hp. unfold bo_step, acc1, del1, bo_obs.
  cbn [fst snd in_vld in_rd in_data out_vld out_rd out_data oo_rd oo_vld oo_data].
  destruct (b_wait s) eqn:Ew.
  - destruct Hp as [Hle (x & y & Rx & Ry & Nx & Hp & Hc)].
    destruct (Nat.eqb_spec (b_cnt s) 0) as [E0|E0]; rewrite ?andb_false_r, ?andb_true_r; cbn [negb andb].
    + rewrite E0, Nat.sub_0_r in Hc. destruct (oi_rd i) eqn:Er; rewrite ?andb_false_r; cbn [negb andb].
      * exists []. split; [unfold pend; cbn [b_wait b_cnt]; split; [exact E0|reflexivity]|].
        rewrite Hp. cbn. f_equal. symmetry. apply (calc_end n x y s Rx Ry Hc).
      * exists p. split.
        { unfold pend. cbn [b_wait b_cnt]. split; [lia|]. exists x, y.
          split; [exact Rx|]. split; [exact Ry|]. split; [exact Nx|]. split; [exact Hp|].
          rewrite E0, Nat.sub_0_r. destruct Hc; constructor; assumption. }
        cbn. rewrite app_nil_r. reflexivity.
    + rewrite ?andb_false_r. cbn [negb andb]. exists p. split.
      * unfold pend. cbn [b_wait b_cnt]. split; [lia|]. exists x, y. split; [exact Rx|]. split; [exact Ry|]. split; [exact Nx|].
        split; [exact Hp|].
        replace (S n - (b_cnt s - 1))%nat with (S (S n - b_cnt s)) by lia.
        apply calc_step; try assumption; lia.
      * cbn. rewrite app_nil_r. reflexivity.
  - destruct Hp as [E0 ->]. rewrite E0. cbn [Nat.eqb negb andb]. rewrite ?andb_true_r.
    destruct (oi_vld i) eqn:Ev.
    + cbn [negb andb]. exists [as_signed (S n) (oi_a i) * as_signed (S n) (oi_b i)]. split.
      * unfold pend. cbn [b_wait b_cnt]. split; [lia|]. exists (oi_a i), (oi_b i). split; [exact Hx|]. split; [exact Hy|].
        split; [exact Hm|]. split; [reflexivity|].
        rewrite Nat.sub_diag; apply (calc_start n (oi_a i) (oi_b i)); try assumption; reflexivity.
      * reflexivity.
    + cbn [negb andb]. exists []. split; [unfold pend; cbn [b_wait b_cnt]; destruct (oi_rd i); split; reflexivity|]. reflexivity.
Qed.

Lemma pend_len n s p : pend n s p -> (length p <= 1)%nat.
Proof.
  unfold pend. destruct (b_wait s); [intros [_ (x & y & _ & _ & _ & -> & _)]|intros [_ ->]]; cbn; lia.
Qed.

Lemma booth_run n is : Forall (good_in (S n)) is -> forall s p, pend n s p ->
  exists p', pend n (final (bo_step (S n)) s is) p' /\
    p ++ map (fun o => as_signed (S n) (fst o) * as_signed (S n) (snd o)) (accepted (map bo_obs (trace (bo_step (S n)) s is))) =
      map (as_signed (2 * S n)) (delivered (map bo_obs (trace (bo_step (S n)) s is))) ++ p'.
Proof.
  induction 1 as [|i is Hi His IH]; intros s p Hp.
  - exists p. split; [exact Hp|]. cbn. rewrite app_nil_r. reflexivity.
  - destruct (pend_step n s i p Hp Hi) as (p1 & Hp1 & E1). destruct (IH _ _ Hp1) as (p2' & Hp2 & E2).
    exists p2'. rewrite final_cons. split; [exact Hp2|].
    rewrite trace_cons, map_cons, accepted_cons, delivered_cons, !map_app.
    fold (acc1 (bo_obs (i, snd (bo_step (S n) s i)))). fold (del1 (bo_obs (i, snd (bo_step (S n) s i)))).
    rewrite app_assoc, E1, <- !app_assoc, E2. reflexivity.
Qed.

Lemma booth_products n a m q q1 (is : list bo_in) : (1 <= n)%nat ->
  Forall (bo_vec n) is -> Forall (fun i => oi_a i <> 2 ^ (Z.of_nat n - 1)) is ->
  products n (map bo_obs (trace (bo_step n) (bo_init a m q q1) is)).
Proof.
  intros Hn H1 H2. destruct n as [|n]; [lia|].
  assert (Hg : Forall (good_in (S n)) is).
  { rewrite Forall_forall in *. intros i Hin. split; [apply H1|apply H2]; exact Hin. }
  destruct (booth_run n is Hg (bo_init a m q q1) []) as (p & Hp & E); [split; reflexivity|].
  exists p. split; [apply (pend_len _ _ _ Hp)|exact E].
Qed.

Lemma booth_hold n s i j : let o := snd (bo_step n s i) in
  oo_vld o = true -> oi_rd i = false ->
  let o' := snd (bo_step n (fst (bo_step n s i)) j) in oo_vld o' = true /\ oo_data o' = oo_data o.
Proof.
  unfold bo_step at 1. cbn [snd oo_vld oo_data]. intros Hv Hr.
  apply andb_prop in Hv. destruct Hv as [Hc Hw]. unfold bo_step. rewrite Hc, Hw, Hr.
  rewrite ?andb_false_r. cbn [negb andb fst snd b_cnt b_wait b_a b_q oo_vld oo_data]. rewrite Hc. split; reflexivity.
Qed.

Lemma booth_stable n (is : list bo_in) s : out_stable (map bo_obs (trace (bo_step n) s is)).
Proof.
  revert s. induction is as [|i is IH]; intros s; [exact I|].
  specialize (IH (fst (bo_step n s i))). rewrite trace_cons, map_cons.
  destruct is as [|j is]; [exact I|]. rewrite trace_cons, map_cons in *. split; [|exact IH].
  unfold bo_obs. cbn [out_vld out_rd out_data fst snd]. apply booth_hold.
Qed.

(** the result is there exactly [n] cycles after the operands were taken *)
Lemma booth_count n (js : list bo_in) : forall s, b_wait s = true -> (length js <= b_cnt s)%nat ->
  let s' := final (bo_step n) s js in b_wait s' = true /\ b_cnt s' = (b_cnt s - length js)%nat.
Proof.
  induction js as [|j js IH]; intros s Hw Hl; [cbn; split; [exact Hw|lia]|].
  cbn [length] in Hl. rewrite final_cons.
  assert (E : b_wait (fst (bo_step n s j)) = true /\ b_cnt (fst (bo_step n s j)) = (b_cnt s - 1)%nat).
  { unfold bo_step. rewrite Hw. destruct (Nat.eqb_spec (b_cnt s) 0) as [E|E]; [lia|].
    rewrite ?andb_false_r. cbn. split; reflexivity. }
  destruct E as [E1 E2]. destruct (IH _ E1) as [F1 F2]; [lia|]. split; [exact F1|]. rewrite F2, E2. cbn [length]. lia.
Qed.

Lemma booth_latency n s i (js : list bo_in) k :
  oi_vld i && oo_rd (snd (bo_step n s i)) = true -> (length js <= n)%nat ->
  oo_vld (snd (bo_step n (final (bo_step n) s (i :: js)) k)) = (length js =? n)%nat.
Proof.
  intros Ha Hl. rewrite final_cons.
  assert (E : b_wait (fst (bo_step n s i)) = true /\ b_cnt (fst (bo_step n s i)) = n).
  { unfold bo_step in *. cbn [snd oo_rd] in Ha. rewrite andb_assoc in Ha. rewrite Ha. split; reflexivity. }
  destruct E as [E1 E2]. destruct (booth_count n js _ E1) as [F1 F2]; [lia|]. set (s' := final _ _ _) in *.
  unfold bo_step. cbn [snd oo_vld]. rewrite F1, F2, E2, andb_true_r.
  destruct (Nat.eqb_spec (n - length js) 0), (Nat.eqb_spec (length js) n); try reflexivity; lia.
Qed.

Definition ex_bo_in (a b : Z) : list bo_in := mk_boi true a b false :: repeat (mk_boi false 0 0 true) 6.
(** 4 bits: -3 * 7 *)
Lemma ex_bo : let t := map bo_obs (trace (bo_step 4) (bo_init 5 5 5 true) (ex_bo_in 13 7)) in
  Forall (bo_vec 4) (ex_bo_in 13 7) /\ Forall (fun i => oi_a i <> 8) (ex_bo_in 13 7) /\
  accepted t = [(13, 7)] /\ map (as_signed 8) (delivered t) = [-21].
Proof. repeat split; try (repeat constructor; cbn; lia); vm_compute; reflexivity. Qed.
(** 4 bits: -8 * 1 gives 8 *)
Lemma booth_bad : let t := map bo_obs (trace (bo_step 4) (bo_init 0 0 0 false) (ex_bo_in 8 1)) in
  Forall (bo_vec 4) (ex_bo_in 8 1) /\
  accepted t = [(8, 1)] /\ as_signed 4 8 = -8 /\ as_signed 4 1 = 1 /\ map (as_signed 8) (delivered t) = [8].
Proof. repeat split; try (repeat constructor; cbn; lia); vm_compute; reflexivity. Qed.
Lemma booth_refuted : exists is, Forall (bo_vec 4) is /\ ~ products 4 (map bo_obs (trace (bo_step 4) (bo_init 0 0 0 false) is)).
Proof.
  exists (ex_bo_in 8 1). split; [apply booth_bad|]. intros (p & Hl & E). vm_compute in E. discriminate E.
Qed.
