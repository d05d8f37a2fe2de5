From Verif Require Import Base BaseFacts StwModel StwSpec StwProofs StrModel StrSpec.
Local Open Scope nat_scope.

(** one frame *)
Lemma rem_split : forall k bits, (0 < k)%N -> (0 < bits)%N -> (bits mod 8 = 0)%N -> let dw := (8 * k)%N in
  exists q r, bits = (8 * (k * q + r))%N /\ (r < k)%N /\ req_rem dw bits = r /\ ((bits + (dw - 1)) / dw = if (r =? 0)%N then q else q + 1)%N.
Proof.
  intros k bits Hk Hb H8. cbv zeta. apply N.mod_divides in H8; [|discriminate]. destruct H8 as (b & ->).
  pose proof (N.div_mod b k ltac:(lia)) as Hd. pose proof (N.mod_lt b k ltac:(lia)) as Hm. set (q := (b / k)%N) in *. set (r := (b mod k)%N) in *.
  exists q, r. split; [lia|]. split; [exact Hm|]. split.
  - unfold req_rem. rewrite N.mul_mod_distr_l by lia. fold r. symmetry. apply (N.div_unique _ 8 r 7); lia.
  - clearbody q r. destruct (N.eqb_spec r 0) as [E|E]; symmetry.
    + apply (N.div_unique _ (8 * k) q (8 * k - 1)); nia.
    + apply (N.div_unique _ (8 * k) (q + 1) (8 * r - 1)); nia.
Qed.
Lemma one_frame : forall aw k a f, (0 < k)%N -> frame_ok f -> bytes_of (8 * k) (rd_req aw (8 * k) a f) = frame_bytes aw a f /\ (snd (rd_req aw (8 * k) a f) < k)%N.
Proof.
  intros aw k a (s, e) Hk (H1 & H2). unfold rd_req, bytes_of, frame_bytes, word_cnt. cbn [fst snd] in *.
  destruct (rem_split k (e - s) Hk ltac:(lia) H2) as (q & r & E1 & E2 & E3 & E4). rewrite E3, E4. split; [|exact E2]. f_equal.
  assert (E5 : ((e - s) / 8 = k * q + r)%N) by (rewrite E1, N.mul_comm; apply N.div_mul; discriminate).
  assert (E6 : (8 * k / 8 = k)%N) by (rewrite N.mul_comm; apply N.div_mul; discriminate).
  rewrite E5, E6. clear E3 E4 E5 E6. destruct (N.eqb_spec r 0) as [E|E].
  - assert (q <> 0)%N by (intros ->; lia). replace (q - 1 + 1)%N with q by lia. lia.
  - replace (q + 1 - 1)%N with q by lia. lia.
Qed.
Lemma rem_fits : forall k x, (0 < k)%N -> (x < k)%N -> N.to_nat x < 2 ^ rem_bits (8 * k).
Proof.
  intros k x Hk H. unfold rem_bits. assert (E6 : (8 * k / 8 = k)%N) by (rewrite N.mul_comm; apply N.div_mul; discriminate). rewrite E6.
  pose proof (log2ceil_ge (N.to_nat k)). lia.
Qed.
(** the machine *)
Definition rqs (aw dw : N) (fs : list layout) (a : N) := map (rd_req aw dw a) fs.
Definition sinv aw dw fs addrs (s : srs) (os : list sro) : Prop :=
  exists dn, addrs = dn ++ r_todo s /\ length dn = gets os /\ r_idx s < length fs /\
  sr_reqs os = flat_map (rqs aw dw fs) dn ++ firstn (r_idx s) (rqs aw dw fs (hd 0%N (r_todo s))) /\ (r_todo s = [] -> r_idx s = 0).
Lemma sr_reqs_app : forall a b, sr_reqs (a ++ b) = sr_reqs a ++ sr_reqs b.
Proof. induction a as [|x a IH]; intros b; [reflexivity|]. cbn [app sr_reqs]. destruct (ro_req x); rewrite IH; reflexivity. Qed.
Lemma gets_snoc : forall a x, gets (a ++ [x]) = gets a + (if ro_get x then 1 else 0).
Proof. intros a x. unfold gets. rewrite filter_app, app_length. cbn. destruct (ro_get x); reflexivity. Qed.
Lemma sinv_step : forall aw dw fs addrs s os i, sinv aw dw fs addrs s os -> sinv aw dw fs addrs (fst (sr_step aw dw fs s i)) (os ++ [snd (sr_step aw dw fs s i)]).
Proof.
  intros aw dw fs addrs [todo idx] os (v, rd) (dn & H1 & H2 & H3 & H4 & H5). cbn [r_todo r_idx] in *. unfold sr_step. cbn [r_todo r_idx fst snd].
  destruct todo as [|a todo].
  - rewrite andb_false_r. cbn [andb]. exists dn. cbn [r_todo r_idx]. rewrite sr_reqs_app, gets_snoc. cbn [sr_reqs ro_req ro_get]. rewrite Nat.add_0_r, (app_nil_r (sr_reqs os)). auto.
  - cbn [negb]. rewrite andb_true_r. destruct (v && rd) eqn:Ef.
    2:{ cbn [andb]. exists dn. cbn [r_todo r_idx]. rewrite sr_reqs_app, gets_snoc. cbn [sr_reqs ro_req ro_get]. rewrite Nat.add_0_r, (app_nil_r (sr_reqs os)). auto. }
    assert (L : length (rqs aw dw fs a) = length fs) by (apply map_length).
    assert (Nt : nth idx (rqs aw dw fs a) (rd_req aw dw a (0, 0)%N) = rd_req aw dw a (nth idx fs (0, 0)%N)) by (apply map_nth).
    cbn [andb hd tl]. destruct (Nat.eqb_spec idx (length fs - 1)) as [E|E].
    + exists (dn ++ [a]). cbn [r_todo r_idx]. rewrite sr_reqs_app, gets_snoc, app_length. cbn [sr_reqs ro_req ro_get length].
      split; [rewrite <- app_assoc; exact H1|]. split; [rewrite H2; reflexivity|]. split; [lia|]. split; [|auto].
      rewrite H4, flat_map_app. cbn [flat_map firstn hd]. rewrite !app_nil_r, <- app_assoc. f_equal. symmetry.
      assert (Ha : firstn (S idx) (rqs aw dw fs a) = rqs aw dw fs a) by (apply firstn_all2; rewrite L; lia). rewrite <- Ha at 1.
      rewrite (firstn_S_nth _ _ _ (rd_req aw dw a (0, 0)%N)) by (rewrite L; lia). rewrite Nt. reflexivity.
    + exists dn. cbn [r_todo r_idx hd]. rewrite sr_reqs_app, gets_snoc. cbn [sr_reqs ro_req ro_get].
      split; [exact H1|]. split; [rewrite Nat.add_0_r; exact H2|]. split; [lia|]. split; [|discriminate].
      rewrite H4, <- app_assoc. f_equal. cbn [hd]. symmetry. rewrite (firstn_S_nth _ _ _ (rd_req aw dw a (0, 0)%N)) by (rewrite L; lia). rewrite Nt. reflexivity.
Qed.
Lemma sinv_run : forall aw dw fs addrs ins, fs <> [] -> sinv aw dw fs addrs (final (sr_step aw dw fs) (sr_init addrs) ins) (outs (sr_step aw dw fs) (sr_init addrs) ins).
Proof.
  intros aw dw fs addrs ins Hn. induction ins as [|i ins IH] using rev_ind.
  - exists []. rewrite final_nil, outs_nil. cbn. destruct fs; [congruence|]. cbn. repeat split; lia || auto.
  - rewrite final_snoc, outs_snoc. apply sinv_step. exact IH.
Qed.
Lemma map_firstn : forall (A B : Type) (f : A -> B) n l, map f (firstn n l) = firstn n (map f l).
Proof. intros A B f n. induction n; intros [|x l]; cbn; rewrite ?IHn; reflexivity. Qed.
Lemma map_flat : forall (A B C : Type) (f : A -> list B) (g : B -> C) l, map g (flat_map f l) = flat_map (fun x => map g (f x)) l.
Proof. intros A B C f g. induction l as [|x l IH]; [reflexivity|]. cbn. rewrite map_app, IH. reflexivity. Qed.
Lemma covers_all : forall aw k fs addrs ins, (0 < k)%N -> fs <> [] -> Forall frame_ok fs -> let os := outs (sr_step aw (8 * k) fs) (sr_init addrs) ins in
  exists part, map (bytes_of (8 * k)) (sr_reqs os) = flat_map (fun a => map (frame_bytes aw a) fs) (firstn (gets os) addrs) ++ part /\ length part < length fs /\
  (part <> [] -> exists a rest, nth_error addrs (gets os) = Some a /\ map (frame_bytes aw a) fs = part ++ rest).
Proof.
  intros aw k fs addrs ins Hk Hn Hf. cbv zeta. destruct (sinv_run aw (8 * k) fs addrs ins Hn) as (dn & H1 & H2 & H3 & H4 & H5).
  set (os := outs (sr_step aw (8 * k) fs) (sr_init addrs) ins) in *. set (s := final (sr_step aw (8 * k) fs) (sr_init addrs) ins) in *.
  assert (Eb : forall a, map (bytes_of (8 * k)) (rqs aw (8 * k) fs a) = map (frame_bytes aw a) fs).
  { intros a. unfold rqs. rewrite map_map. apply map_ext_in. intros f Hin. rewrite Forall_forall in Hf. apply (one_frame aw k a f Hk (Hf f Hin)). }
  exists (firstn (r_idx s) (map (frame_bytes aw (hd 0%N (r_todo s))) fs)). split; [|split].
  - rewrite H4, map_app, map_flat, map_firstn, Eb, <- H2.
    assert (E : firstn (length dn) addrs = dn) by (rewrite H1, firstn_app, Nat.sub_diag, firstn_all; apply app_nil_r). rewrite E. f_equal.
    apply flat_map_ext. exact Eb.
  - rewrite firstn_length. lia.
  - intros Hp. destruct (r_todo s) as [|a t] eqn:Et.
    + exfalso. apply Hp. rewrite (H5 eq_refl). reflexivity.
    + exists a, (skipn (r_idx s) (map (frame_bytes aw a) fs)). split; [|cbn [hd]; symmetry; apply firstn_skipn].
      rewrite H1, <- H2, nth_error_app2, Nat.sub_diag by lia. reflexivity.
Qed.
Lemma fits_all : forall aw k fs addrs ins, (0 < k)%N -> fs <> [] -> Forall frame_ok fs ->
  Forall (fun r => N.to_nat (snd r) < 2 ^ rem_bits (8 * k)) (sr_reqs (outs (sr_step aw (8 * k) fs) (sr_init addrs) ins)).
Proof.
  intros aw k fs addrs ins Hk Hn Hf. destruct (sinv_run aw (8 * k) fs addrs ins Hn) as (dn & _ & _ & _ & H4 & _). rewrite H4.
  assert (Ha : forall a, Forall (fun r => N.to_nat (snd r) < 2 ^ rem_bits (8 * k)) (rqs aw (8 * k) fs a)).
  { intros a. unfold rqs. apply Forall_map. apply Forall_forall. intros f Hin. rewrite Forall_forall in Hf. apply rem_fits; [exact Hk|]. apply (one_frame aw k a f Hk (Hf f Hin)). }
  apply Forall_app. split.
  - apply Forall_flat_map. apply Forall_forall. intros a _. apply Ha.
  - apply Forall_forall. intros x Hx. assert (Hin : In x (rqs aw (8 * k) fs (hd 0%N (r_todo (final (sr_step aw (8 * k) fs) (sr_init addrs) ins))))).
    { rewrite <- (firstn_skipn (r_idx (final (sr_step aw (8 * k) fs) (sr_init addrs) ins))). apply in_or_app. left. exact Hx. }
    pose proof (Ha (hd 0%N (r_todo (final (sr_step aw (8 * k) fs) (sr_init addrs) ins)))) as H. rewrite Forall_forall in H. apply H. exact Hin.
Qed.
(** handshakes *)
Lemma sr_handshake : forall aw dw fs addrs ins n i o, fs <> [] -> let os := outs (sr_step aw dw fs) (sr_init addrs) ins in
  nth_error ins n = Some i -> nth_error os n = Some o ->
  (ro_req o <> None <-> i = (true, true) /\ gets (firstn n os) < length addrs) /\ (ro_get o = true -> ro_req o <> None).
Proof.
  intros aw dw fs addrs ins n (v, rd) o Hn. cbv zeta. intros Hi Ho. destruct (outs_at _ _ _ _ _ _ _ _ _ Hi Ho) as (E1 & E2). rewrite E2.
  destruct (sinv_run aw dw fs addrs (firstn n ins) Hn) as (dn & H1 & H2 & _ & _ & _). rewrite <- H2. subst o. clear - H1.
  set (s := final _ _ _) in *. rewrite H1, app_length. unfold sr_step. cbn [snd fst ro_req ro_get].
  destruct (r_todo s) as [|a t]; destruct v, rd; cbn [andb negb length]; (split; [split|]); intros; try congruence;
    repeat match goal with H : _ /\ _ |- _ => destruct H end; try discriminate; try lia; try (split; [reflexivity|lia]).
Qed.
(** a frame whose last byte is not whole *)
Lemma rem_over : exists aw k f, (0 < k)%N /\ (fst f < snd f)%N /\ 2 ^ rem_bits (8 * k) <= N.to_nat (snd (rd_req aw (8 * k) 0 f)).
Proof. exists 32%N, 8%N, (0, 61)%N. split; [reflexivity|]. split; [reflexivity|]. apply Nat.leb_le. vm_compute. reflexivity. Qed.
