From Verif Require Import Base BaseFacts StwModel StwSpec.
Local Open Scope nat_scope.

Lemma reqs_app : forall a b, reqs (a ++ b) = reqs a ++ reqs b.
Proof. induction a as [|x a IH]; intros b; [reflexivity|]. cbn [app reqs]. destruct (o_req x); rewrite IH; reflexivity. Qed.
Lemma count_app : forall f a b, count f (a ++ b) = count f a + count f b.
Proof. intros f a b. unfold count. rewrite filter_app, app_length. reflexivity. Qed.
Lemma count_one : forall f x, count f [x] = if f x then 1 else 0.
Proof. intros f x. unfold count. cbn. destruct (f x); reflexivity. Qed.
Lemma firstn_S_nth : forall (A : Type) (l : list A) n d, n < length l -> firstn (S n) l = firstn n l ++ [nth n l d].
Proof.
  intros A. induction l as [|x l IH]; intros n d H; [cbn in H; lia|]. destruct n; [reflexivity|]. cbn in H. change (firstn (S (S n)) (x :: l)) with (x :: firstn (S n) l).
  rewrite (IH n d) by lia. reflexivity.
Qed.

(** requests *)
Definition rinv aw fs addrs (s : sws) (os : list swo) : Prop :=
  exists dn, addrs = dn ++ w_todo s /\ length dn = count o_set os /\ w_idx s < length fs /\
  reqs os = flat_map (reqs_at aw fs) dn ++ firstn (w_idx s) (reqs_at aw fs (hd 0%N (w_todo s))) /\ (w_todo s = [] -> w_idx s = 0).
Lemma rinv_step : forall aw fs addrs s os i, rinv aw fs addrs s os -> rinv aw fs addrs (fst (sw_step aw fs s i)) (os ++ [snd (sw_step aw fs s i)]).
Proof.
  intros aw fs addrs [todo idx info] os i (dn & H1 & H2 & H3 & H4 & H5). cbn [w_todo w_idx w_info] in *. unfold sw_step. cbn [w_todo w_idx w_info fst snd].
  destruct todo as [|a todo].
  - rewrite andb_false_r. cbn [andb]. exists dn. cbn [w_todo w_idx]. rewrite reqs_app, count_app, count_one. cbn [reqs o_req o_set]. rewrite Nat.add_0_r, (app_nil_r (reqs os)). auto.
  - cbn [negb]. rewrite andb_true_r. destruct (i_vld i && i_req_rd i && i_info_rd i) eqn:Ef.
    2:{ cbn [andb]. exists dn. cbn [w_todo w_idx]. rewrite reqs_app, count_app, count_one. cbn [reqs o_req o_set]. rewrite Nat.add_0_r, (app_nil_r (reqs os)). auto. }
    assert (L : length (reqs_at aw fs a) = length fs) by (apply map_length).
    cbn [andb hd tl]. destruct (Nat.eqb_spec idx (length fs - 1)) as [E|E].
    + exists (dn ++ [a]). cbn [w_todo w_idx]. rewrite reqs_app, count_app, count_one, app_length. cbn [reqs o_req o_set length].
      split; [rewrite <- app_assoc; exact H1|]. split; [rewrite H2; reflexivity|]. split; [lia|]. split; [|auto].
      rewrite H4, flat_map_app. cbn [flat_map firstn hd]. rewrite !app_nil_r, <- app_assoc. f_equal. symmetry.
      assert (Ha : firstn (S idx) (reqs_at aw fs a) = reqs_at aw fs a) by (apply firstn_all2; rewrite L; lia). rewrite <- Ha at 1.
      rewrite (firstn_S_nth _ _ _ (req_of aw a (0, 0, 0)%N)) by (rewrite L; lia). f_equal. f_equal.
      unfold reqs_at. change (fun f : fr => let '(start, len, rem) := f in (((a + start) mod 2 ^ aw)%N, len, rem)) with (req_of aw a). apply map_nth.
    + exists dn. cbn [w_todo w_idx hd]. rewrite reqs_app, count_app, count_one. cbn [reqs o_req o_set].
      split; [exact H1|]. split; [rewrite Nat.add_0_r; exact H2|]. split; [lia|]. split; [|discriminate].
      rewrite H4, <- app_assoc. f_equal. cbn [hd]. symmetry.
      rewrite (firstn_S_nth _ _ _ (req_of aw a (0, 0, 0)%N)) by (rewrite L; lia). f_equal. f_equal.
      unfold reqs_at. change (fun f : fr => let '(start, len, rem) := f in (((a + start) mod 2 ^ aw)%N, len, rem)) with (req_of aw a). apply map_nth.
Qed.
Lemma rinv_run : forall aw fs addrs ins, fs <> [] -> rinv aw fs addrs (final (sw_step aw fs) (sw_init addrs) ins) (outs (sw_step aw fs) (sw_init addrs) ins).
Proof.
  intros aw fs addrs ins Hn. induction ins as [|i ins IH] using rev_ind.
  - exists []. cbn. destruct fs; [congruence|]. repeat split; cbn; lia || auto.
  - rewrite final_snoc, outs_snoc. apply rinv_step. exact IH.
Qed.
Lemma requests : forall aw fs addrs ins, fs <> [] -> let os := outs (sw_step aw fs) (sw_init addrs) ins in
  exists part, reqs os = flat_map (reqs_at aw fs) (firstn (count o_set os) addrs) ++ part /\ length part < length fs /\
  (part <> [] -> exists a rest, nth_error addrs (count o_set os) = Some a /\ reqs_at aw fs a = part ++ rest).
Proof.
  intros aw fs addrs ins Hn. cbv zeta. destruct (rinv_run aw fs addrs ins Hn) as (dn & H1 & H2 & H3 & H4 & H5).
  set (os := outs (sw_step aw fs) (sw_init addrs) ins) in *. set (s := final (sw_step aw fs) (sw_init addrs) ins) in *.
  eexists. split; [rewrite H4, <- H2|].
  - assert (E : firstn (length dn) addrs = dn) by (rewrite H1, firstn_app, Nat.sub_diag, firstn_all; apply app_nil_r). rewrite E. reflexivity.
  - split.
    + rewrite firstn_length. lia.
    + intros Hp. destruct (w_todo s) as [|a t] eqn:Et.
      * exfalso. apply Hp. rewrite (H5 eq_refl). reflexivity.
      * exists a, (skipn (w_idx s) (reqs_at aw fs a)). split; [|cbn [hd]; symmetry; apply firstn_skipn].
        rewrite H1, <- H2, nth_error_app2, Nat.sub_diag by lia. reflexivity.
Qed.

(** acknowledges *)
Definition tok (n j : nat) : bool := token (j mod n).
Definition ainv (n : nat) (s : sws) (os : list swo) : Prop :=
  exists m, w_idx s = m mod n /\ m = length (reqs os) /\ count o_ack os <= m /\ w_info s = map (tok n) (seq (count o_ack os) (m - count o_ack os)) /\
  count o_wack os = count o_ack os - (count o_ack os + (n - 1)) / n.
Lemma mod_next : forall m n, 0 < n -> S m mod n = if m mod n =? n - 1 then 0 else S (m mod n).
Proof.
  intros m n Hn. pose proof (Nat.div_mod m n ltac:(lia)) as Hd. pose proof (Nat.mod_upper_bound m n ltac:(lia)) as Hm.
  destruct (Nat.eqb_spec (m mod n) (n - 1)) as [E|E]; symmetry.
  - apply (Nat.mod_unique _ _ (m / n + 1)); [lia|]. nia.
  - apply (Nat.mod_unique _ _ (m / n)); [lia|]. lia.
Qed.
Lemma ceil_next : forall k n, 0 < n -> (S k + (n - 1)) / n = (k + (n - 1)) / n + (if k mod n =? 0 then 1 else 0) /\ (k + (n - 1)) / n <= k.
Proof.
  intros k n Hn. pose proof (Nat.div_mod k n ltac:(lia)) as Hd. pose proof (Nat.mod_upper_bound k n ltac:(lia)) as Hm. set (q := k / n) in *. set (r := k mod n) in *. clearbody q r.
  destruct (Nat.eqb_spec r 0) as [E|E].
  - assert (E1 : (k + (n - 1)) / n = q) by (symmetry; apply (Nat.div_unique _ n q (n - 1)); lia).
    assert (E2 : (S k + (n - 1)) / n = q + 1) by (symmetry; apply (Nat.div_unique _ n (q + 1) 0); nia). rewrite E1, E2. split; [reflexivity|]. nia.
  - assert (E1 : (k + (n - 1)) / n = q + 1) by (symmetry; apply (Nat.div_unique _ n (q + 1) (r - 1)); nia).
    assert (E2 : (S k + (n - 1)) / n = q + 1) by (symmetry; apply (Nat.div_unique _ n (q + 1) r); nia). rewrite E1, E2. split; [lia|]. nia.
Qed.
Lemma ainv_step : forall aw fs s os i, fs <> [] -> ainv (length fs) s os -> ainv (length fs) (fst (sw_step aw fs s i)) (os ++ [snd (sw_step aw fs s i)]).
Proof.
  intros aw fs [todo idx info] os i Hn (m & H1 & H2 & H3 & H4 & H5). set (n := length fs) in *. assert (Hn' : 0 < n) by (subst n; destruct fs; [congruence|cbn; lia]).
  cbn [w_idx w_info] in *. unfold sw_step. cbn [w_todo w_idx w_info fst snd]. fold n.
  set (fire := i_vld i && negb (match todo with [] => true | _ => false end) && i_req_rd i && i_info_rd i).
  set (k := count o_ack os) in *.
  set (ackf := i_ack_vld i && (i_info_vld i && negb (match info with [] => true | _ => false end)) && (Bool.eqb (hd false info) PROPAGATE || i_wack_rd i)).
  set (wack := i_ack_vld i && (i_info_vld i && negb (match info with [] => true | _ => false end)) && negb (Bool.eqb (hd false info) PROPAGATE) && i_wack_rd i).
  assert (Hb : w_idx (mk_sws todo idx info) = m mod n) by exact H1.
  (* acknowledge *)
  assert (A : (ackf = true -> k < m /\ hd false info = tok n k /\ tl info = map (tok n) (seq (S k) (m - S k))) /\ wack = ackf && hd false info).
  { split.
    - intros Ha. assert (Hi : info <> []). { subst ackf. destruct info; [|discriminate]. cbn in Ha. rewrite andb_false_r in Ha. cbn in Ha. rewrite andb_false_r in Ha. discriminate Ha. }
      assert (Hlt : k < m). { destruct (Nat.eq_dec k m) as [E|E]; [|lia]. exfalso. apply Hi. rewrite H4, E, Nat.sub_diag. reflexivity. }
      split; [exact Hlt|]. rewrite H4. replace (m - k) with (S (m - S k)) by lia. split; reflexivity.
    - subst ackf wack. unfold PROPAGATE. destruct (i_ack_vld i), (i_info_vld i), info as [|[|] info]; cbn; destruct (i_wack_rd i); reflexivity. }
  destruct A as (A1 & A2).
  exists (if fire then S m else m). cbn [w_idx w_info]. rewrite reqs_app, app_length, !count_app, !count_one. cbn [reqs o_req o_ack o_wack].
  fold k. fold fire. fold ackf. fold wack. destruct (ackf) eqn:Ea.
  - destruct (A1 eq_refl) as (B1 & B2 & B3). cbn [andb] in A2. rewrite A2, B2, B3. destruct (ceil_next k n Hn') as (C1 & C2).
    assert (Hw : count o_wack os + (if tok n k then 1 else 0) = k + 1 - (k + 1 + (n - 1)) / n).
    { rewrite H5. replace (k + 1) with (S k) by lia. rewrite C1. unfold tok, token, SKIP, PROPAGATE. destruct (k mod n =? 0); cbn [negb]; lia. }
    destruct fire; cbn [reqs o_req length].
    + split; [rewrite mod_next by exact Hn'; rewrite H1; reflexivity|]. split; [lia|]. split; [lia|]. split; [|exact Hw].
      replace (S m - (k + 1)) with (S (m - S k)) by lia. replace (k + 1) with (S k) by lia. rewrite seq_S, map_app. f_equal. cbn [map]. replace (S k + (m - S k)) with m by lia. unfold tok. rewrite H1. reflexivity.
    + split; [exact H1|]. split; [lia|]. split; [lia|]. split; [|exact Hw]. rewrite app_nil_r. replace (k + 1) with (S k) by lia. reflexivity.
  - cbn [andb] in A2. rewrite A2. rewrite !Nat.add_0_r. destruct fire; cbn [reqs o_req length].
    + split; [rewrite mod_next by exact Hn'; rewrite H1; reflexivity|]. split; [lia|]. split; [lia|]. split; [|exact H5].
      replace (S m - k) with (S (m - k)) by lia. rewrite seq_S, map_app, <- H4. f_equal. cbn [map]. replace (k + (m - k)) with m by lia. unfold tok. rewrite H1. reflexivity.
    + split; [exact H1|]. split; [lia|]. split; [lia|]. split; [|exact H5]. rewrite app_nil_r. exact H4.
Qed.
Lemma ainv_run : forall aw fs addrs ins, fs <> [] -> ainv (length fs) (final (sw_step aw fs) (sw_init addrs) ins) (outs (sw_step aw fs) (sw_init addrs) ins).
Proof.
  intros aw fs addrs ins Hn.
  induction ins as [|i ins IH] using rev_ind.
    - exists 0. cbn [w_idx w_info]. rewrite final_nil, outs_nil. unfold sw_init. cbn [w_idx w_info]. assert (0 < length fs) by (destruct fs; [congruence|cbn; lia]).
      split; [symmetry; apply Nat.mod_0_l; lia|]. split; [reflexivity|]. split; [apply le_n|]. split; [reflexivity|]. cbn. reflexivity.
    - rewrite final_snoc, outs_snoc. apply ainv_step; assumption.
Qed.
Lemma acks : forall aw fs addrs ins, fs <> [] -> let os := outs (sw_step aw fs) (sw_init addrs) ins in
  count o_ack os <= length (reqs os) /\ count o_wack os = count o_ack os - (count o_ack os + (length fs - 1)) / length fs.
Proof.
  intros aw fs addrs ins Hn. cbv zeta.
  pose proof (ainv_run aw fs addrs ins Hn) as H.
  destruct H as (m & _ & H2 & H3 & _ & H5). split; [lia|exact H5].
Qed.
Lemma acks_two : forall aw fs addrs ins, length fs = 2 -> let os := outs (sw_step aw fs) (sw_init addrs) ins in count o_wack os = count o_ack os / length fs.
Proof.
  intros aw fs addrs ins H. cbv zeta. destruct (acks aw fs addrs ins ltac:(intros ->; discriminate H)) as (_ & E). rewrite E, H. set (k := count o_ack (outs (sw_step aw fs) (sw_init addrs) ins)). clearbody k. change (2 - 1) with 1.
  pose proof (Nat.div_mod k 2 ltac:(discriminate)) as Hd. pose proof (Nat.mod_upper_bound k 2 ltac:(discriminate)) as Hm.
  destruct (Nat.eq_dec (k mod 2) 0) as [Z|Z].
  - assert ((k + 1) / 2 = k / 2) by (symmetry; apply (Nat.div_unique _ 2 (k / 2) 1); lia). lia.
  - assert ((k + 1) / 2 = k / 2 + 1) by (symmetry; apply (Nat.div_unique _ 2 (k / 2 + 1) 0); lia). lia.
Qed.
Lemma acks_one : forall aw f addrs ins, count o_wack (outs (sw_step aw [f]) (sw_init addrs) ins) = 0.
Proof. intros aw f addrs ins. destruct (acks aw [f] addrs ins ltac:(discriminate)) as (_ & E). rewrite E. cbn [length]. change (1 - 1) with 0. rewrite Nat.add_0_r, Nat.div_1_r. apply Nat.sub_diag. Qed.
Lemma acks_three : exists aw fs addrs ins, length fs = 3 /\ let os := outs (sw_step aw fs) (sw_init addrs) ins in count o_set os = 1 /\ count o_ack os = 3 /\ count o_wack os = 2.
Proof.
  exists 32%N, [(0, 0, 0); (8, 0, 0); (16, 0, 0)]%N, [4%N], (repeat (mk_swi true true true true true true) 4). split; [reflexivity|]. vm_compute. auto.
Qed.
(** handshakes *)
Lemma outs_at : forall (S I O : Type) (step : S -> I -> S * O) s ins n i o, nth_error ins n = Some i -> nth_error (outs step s ins) n = Some o ->
  o = snd (step (final step s (firstn n ins)) i) /\ firstn n (outs step s ins) = outs step s (firstn n ins).
Proof.
  intros S I O step s ins. revert s. induction ins as [|x ins IH]; intros s n i o Hi Ho; [destruct n; discriminate|].
  rewrite outs_cons in *. destruct n as [|n]; cbn [nth_error firstn] in *.
  - injection Hi as <-. injection Ho as <-. rewrite final_nil, outs_nil. auto.
  - destruct (IH _ n i o Hi Ho) as (E1 & E2). rewrite final_cons, outs_cons, E2. auto.
Qed.
Lemma sw_handshake_req : forall aw fs addrs ins n i o, fs <> [] -> let os := outs (sw_step aw fs) (sw_init addrs) ins in
  nth_error ins n = Some i -> nth_error os n = Some o ->
  (o_req o <> None <-> i_vld i = true /\ i_req_rd i = true /\ i_info_rd i = true /\ count o_set (firstn n os) < length addrs) /\ (o_set o = true -> o_req o <> None).
Proof.
  intros aw fs addrs ins n [v rd ird iv av wr] o Hn. cbv zeta. intros Hi Ho. destruct (outs_at _ _ _ _ _ _ _ _ _ Hi Ho) as (E1 & E2). rewrite E2.
  destruct (rinv_run aw fs addrs (firstn n ins) Hn) as (dn & H1 & H2 & _ & _ & _). rewrite <- H2. subst o. clear - H1.
  set (s := final _ _ _) in *. rewrite H1, app_length. unfold sw_step. cbn [snd fst o_req o_set i_vld i_req_rd i_info_rd].
  destruct (w_todo s) as [|a t]; destruct v, rd, ird; cbn [andb negb length]; (split; [split|]); intros; try congruence;
    repeat match goal with H : _ /\ _ |- _ => destruct H end; try discriminate; try lia; try (repeat split; lia).
Qed.
Lemma sw_handshake_ack : forall aw fs addrs ins n i o, fs <> [] -> let os := outs (sw_step aw fs) (sw_init addrs) ins in
  nth_error ins n = Some i -> nth_error os n = Some o -> let first := count o_ack (firstn n os) mod length fs = 0 in
  (o_ack o = true <-> i_ack_vld i = true /\ i_info_vld i = true /\ count o_ack (firstn n os) < length (reqs (firstn n os)) /\ (first \/ i_wack_rd i = true)) /\
  (o_wack o = true <-> o_ack o = true /\ ~ first).
Proof.
  intros aw fs addrs ins n [v rd ird iv av wr] o Hn. cbv zeta. intros Hi Ho. destruct (outs_at _ _ _ _ _ _ _ _ _ Hi Ho) as (E1 & E2). rewrite E2.
  destruct (ainv_run aw fs addrs (firstn n ins) Hn) as (m & _ & H2 & H3 & H4 & _). rewrite <- H2. subst o. clear - H3 H4.
  set (s := final _ _ _) in *. set (k := count o_ack _) in *. unfold sw_step. cbn [snd fst o_ack o_wack i_ack_vld i_info_vld i_wack_rd]. rewrite H4.
  destruct (m - k) as [|d] eqn:Ed; cbn [seq map hd negb].
  - rewrite !andb_false_r. cbn [andb]. split; split; intros H; try discriminate; repeat match goal with H : _ /\ _ |- _ => destruct H end; try discriminate; lia.
  - unfold tok, token. destruct (Nat.eqb_spec (k mod length fs) 0) as [E|E]; destruct av, iv, wr; cbn; split; split; intros H; try discriminate;
      repeat match goal with H : _ /\ _ |- _ => destruct H end; try discriminate; try (exfalso; intuition congruence); repeat split; try lia; auto.
Qed.
