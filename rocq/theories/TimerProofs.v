From Verif Require Import Base BaseFacts AddrModel AddrProofs TimerModel TimerSpec.
From Coq Require Import Permutation.

Lemma pow2b_spec t : pow2b t = true -> exists b, t = 2 ^ b.
Proof.
  unfold pow2b. intros H. apply isPow2N_spec in H. destruct H as [b H]. exists (N.to_nat b). apply Nat2N.inj. rewrite Nat2N.inj_pow, N2Nat.id. exact H.
Qed.

(** ** sharing *)
Definition par_ok (ms : list nat) (par : nat -> option nat) : Prop :=
  forall i p, i < length ms -> par i = Some p ->
    p < length ms /\
    ((pow2b (nth i ms 0) = true /\ p < i /\ nth p ms 0 mod nth i ms 0 = 0 /\ par p = None) \/
     (pow2b (nth i ms 0) = false /\ i < p /\ nth i ms 0 mod nth p ms 0 = 0)).

Lemma resolve_steps_ok ms : forall n k par, k + n = length ms ->
  (forall i, k <= i -> par i = None) ->
  (forall i p, i < k -> par i = Some p ->
    p < length ms /\
    ((pow2b (nth i ms 0) = true /\ p < i /\ nth p ms 0 mod nth i ms 0 = 0 /\ par p = None) \/
     (pow2b (nth i ms 0) = false /\ i < p /\ nth i ms 0 mod nth p ms 0 = 0))) ->
  par_ok ms (resolve_steps ms (seq k n) par).
Proof.
  induction n as [|n IH]; intros k par Hk Hnone Hpar; cbn [seq resolve_steps].
  - intros i p Hi. apply Hpar. lia.
  - apply IH; [lia| |].
    + intros i Hi. rewrite upd_neq by lia. apply Hnone. lia.
    + intros i p Hi Hp. destruct (Nat.eq_dec i k) as [->|Hne].
      * rewrite upd_eq in Hp. unfold choose_parent in Hp. cbv zeta in Hp. destruct (pow2b (nth k ms 0)) eqn:E; apply find_some in Hp; destruct Hp as [Hin Hp].
        -- apply in_seq in Hin. apply andb_prop in Hp. destruct Hp as [H1 H2]. apply Nat.eqb_eq in H1. split; [lia|]. left. repeat split; [lia|exact H1|].
           rewrite upd_neq by lia. destruct (par p); [discriminate|reflexivity].
        -- apply in_seq in Hin. apply andb_prop in Hp. destruct Hp as [H1 H2]. apply Nat.eqb_eq in H1. split; [lia|]. right. repeat split; [lia|exact H1].
      * rewrite upd_neq in Hp by lia. destruct (Hpar i p ltac:(lia) Hp) as [X [(Y1 & Y2 & Y3 & Y4)|Y]]; (split; [exact X|]); [left|right; exact Y].
        repeat split; auto. rewrite upd_neq by lia. exact Y4.
Qed.
Lemma resolve_ok ms : par_ok ms (resolve_sharing ms).
Proof. apply resolve_steps_ok; [lia|reflexivity|intros; lia]. Qed.

(** ** counters *)
(** arithmetic of nested counters *)
Lemma tick_mul n p q : 0 < p -> 0 < q -> ((n + 1) mod p =? 0) && (q - 1 - (n / p) mod q =? 0) = ((n + 1) mod (p * q) =? 0).
Proof.
  intros Hp Hq. pose proof (Nat.div_mod n p ltac:(lia)) as D1. pose proof (Nat.mod_upper_bound n p ltac:(lia)) as U1.
  pose proof (Nat.div_mod (n / p) q ltac:(lia)) as D2. pose proof (Nat.mod_upper_bound (n / p) q ltac:(lia)) as U2.
  set (k := n / p) in *. set (r := n mod p) in *. set (k1 := k / q) in *. set (k0 := k mod q) in *. clearbody r k1 k0. clearbody k.
  assert (n + 1 = p * q * k1 + (p * k0 + r + 1)) as E by (rewrite D1, D2; ring).
  destruct (Nat.eq_dec r (p - 1)) as [Er|Er].
  - assert ((n + 1) mod p = 0) as ->. { rewrite D1. replace (p * k + r + 1) with ((k + 1) * p) by (rewrite Er; nia). apply Nat.mod_mul. lia. }
    cbn [Nat.eqb andb]. destruct (Nat.eq_dec k0 (q - 1)) as [Ek|Ek].
    + assert ((n + 1) mod (p * q) = 0) as ->. { rewrite E. replace (p * q * k1 + (p * k0 + r + 1)) with ((k1 + 1) * (p * q)) by (rewrite Er, Ek; nia). apply Nat.mod_mul. nia. }
      rewrite Ek, Nat.sub_diag. reflexivity.
    + assert (p * k0 + r + 1 < p * q) as L by nia.
      rewrite <- (Nat.mod_unique (n + 1) (p * q) k1 (p * k0 + r + 1) L E).
      destruct (Nat.eqb_spec (q - 1 - k0) 0), (Nat.eqb_spec (p * k0 + r + 1) 0); try reflexivity; clear - n0 e U2 Ek; lia.
  - assert ((n + 1) mod p = r + 1) as ->. { symmetry. apply (Nat.mod_unique _ _ k); [lia|]. rewrite D1. lia. }
    assert (p * k0 + r + 1 < p * q) as L by nia.
    rewrite <- (Nat.mod_unique (n + 1) (p * q) k1 (p * k0 + r + 1) L E).
    replace (r + 1 =? 0) with false by (symmetry; apply Nat.eqb_neq; clear; lia). replace (p * k0 + r + 1 =? 0) with false by (symmetry; apply Nat.eqb_neq; clear; lia). reflexivity.
Qed.
Lemma tick_root n t : 0 < t -> (t - 1 - n mod t =? 0) = ((n + 1) mod t =? 0).
Proof. intros H. pose proof (tick_mul n 1 t ltac:(lia) H) as K. rewrite Nat.mod_1_r, Nat.div_1_r, Nat.mul_1_l in K. exact K. Qed.
Lemma tick_bits n t q : 0 < t -> 0 < q -> ((t * q - 1 - n mod (t * q)) mod t =? 0) = ((n + 1) mod t =? 0).
Proof.
  intros Ht Hq. pose proof (Nat.div_mod n (t * q) ltac:(nia)) as D1. pose proof (Nat.mod_upper_bound n (t * q) ltac:(nia)) as U1.
  set (k := n / (t * q)) in *. set (r := n mod (t * q)) in *. clearbody k r.
  assert ((n + 1) mod t = (r + 1) mod t) as ->. { replace (n + 1) with (r + 1 + (q * k) * t) by (rewrite D1; ring). apply Nat.mod_add. lia. }
  pose proof (Nat.div_mod r t ltac:(lia)) as D2. pose proof (Nat.mod_upper_bound r t ltac:(lia)) as U2. set (a := r / t) in *. set (b := r mod t) in *. clearbody a b.
  assert (a < q) as Ha by nia.
  assert ((t * q - 1 - r) mod t = t - 1 - b) as ->.
  { symmetry. apply (Nat.mod_unique _ _ (q - 1 - a)); [lia|]. assert (t * (q - 1 - a) = t * q - t - t * a) as -> by nia. nia. }
  destruct (Nat.eq_dec b (t - 1)) as [Eb|Eb].
  - replace ((r + 1) mod t) with 0; [rewrite Eb, Nat.sub_diag; reflexivity|]. replace (r + 1) with ((a + 1) * t) by (rewrite D2, Eb; nia). symmetry. apply Nat.mod_mul. lia.
  - replace ((r + 1) mod t) with (b + 1); [|apply (Nat.mod_unique _ _ a); [lia|]; rewrite D2; lia].
    destruct (Nat.eqb_spec (t - 1 - b) 0), (Nat.eqb_spec (b + 1) 0); try reflexivity; clear - e U2 Eb; lia.
Qed.

  (** one count of a counter of period [t] over events *)
  Lemma count_step m q : 0 < q -> (if q - 1 - m mod q =? 0 then q - 1 else q - 1 - m mod q - 1) = q - 1 - (m + 1) mod q.
  Proof.
    intros Hq. pose proof (Nat.mod_upper_bound m q ltac:(lia)) as U. pose proof (Nat.div_mod m q ltac:(lia)) as D. set (r := m mod q) in *. set (k := m / q) in *. clearbody r k.
    destruct (Nat.eqb_spec (q - 1 - r) 0) as [E|E].
    - replace ((m + 1) mod q) with 0; [lia|]. replace (m + 1) with ((k + 1) * q) by nia. symmetry. apply Nat.mod_mul. lia.
    - replace ((m + 1) mod q) with (r + 1); [lia|]. apply (Nat.mod_unique _ _ k); lia.
  Qed.
  Lemma wdec_cnt q x : 0 < q -> x <= q - 1 -> (if x =? 0 then q - 1 else wdec (log2ceil (q - 1 + 1)) x) = (if x =? 0 then q - 1 else x - 1).
  Proof.
    intros Hq Hx. destruct (Nat.eqb_spec x 0); [reflexivity|]. apply wdec_pos; [lia|]. replace (q - 1 + 1) with q by lia. pose proof (log2ceil_ge q). lia.
  Qed.

Section T.
  Variable ms : list nat.
  Hypothesis Hms : forall i, i < length ms -> 1 < nth i ms 0.
  Variable par : nat -> option nat.
  Hypothesis Hpar : par_ok ms par.

  Definition cnt_val (n i : nat) : nat :=
    match par i with
    | None => mv ms i - 1 - n mod mv ms i
    | Some p => let q := mv ms i / mv ms p in q - 1 - (n / mv ms p) mod q
    end.
  Definition cinv (n : nat) (c : nat -> nat) : Prop :=
    forall i, i < length ms -> (match par i with None => True | Some p => mv ms p < mv ms i end) -> c i = cnt_val n i.

  (** length of the chain of parents *)
  Definition rank (i : nat) : nat := match par i with None => 1 | Some p => if pow2b (mv ms i) then 2 else 2 + (length ms - i) end.
  Lemma rank_bound i : rank i <= length ms + 2.
  Proof. clear Hms Hpar. unfold rank. destruct (par i); [destruct (pow2b (mv ms i))|]; lia. Qed.
  Lemma rank_parent i p : i < length ms -> par i = Some p -> rank p < rank i /\ p < length ms.
  Proof.
    intros Hi Hp. destruct (Hpar i p Hi Hp) as [X [(Y1 & Y2 & Y3 & Y4)|(Y1 & Y2 & Y3)]]; (split; [|exact X]).
    - unfold rank at 1. rewrite Y4. unfold rank. rewrite Hp. destruct (pow2b _); lia.
    - unfold rank at 2. rewrite Hp. fold (mv ms i) in Y1. rewrite Y1. unfold rank. destruct (par p); [destruct (pow2b (mv ms p))|]; lia.
  Qed.
  Lemma mv_pos i : i < length ms -> 1 < mv ms i. Proof. apply Hms. Qed.

  (** a parent with a larger period is a root and its period is a multiple *)
  Lemma parent_cases i p : i < length ms -> par i = Some p ->
    (mv ms p = mv ms i) \/
    (mv ms p < mv ms i /\ exists q, 1 < q /\ mv ms i = mv ms p * q) \/
    (mv ms i < mv ms p /\ par p = None /\ exists b q, mv ms i = 2 ^ b /\ 0 < b /\ 0 < q /\ mv ms p = mv ms i * q).
  Proof.
    intros Hi Hp. destruct (Hpar i p Hi Hp) as [X Y]. pose proof (mv_pos i Hi) as P1. pose proof (mv_pos p X) as P2.
    destruct Y as [(Y1 & Y2 & Y3 & Y4)|(Y1 & Y2 & Y3)]; change (nth i ms 0) with (mv ms i) in *; change (nth p ms 0) with (mv ms p) in *.
    - apply Nat.mod_divides in Y3; [|lia]. destruct Y3 as [q Y3]. destruct (Nat.eq_dec q 1) as [->|Hq]; [left; lia|]. right. right.
      assert (0 < q) by (destruct q; lia). split; [nia|]. split; [exact Y4|]. apply pow2b_spec in Y1. destruct Y1 as [b Y1]. exists b, q. repeat split; auto.
      destruct b; [cbn in Y1; lia|lia].
    - apply Nat.mod_divides in Y3; [|lia]. destruct Y3 as [q Y3]. destruct (Nat.eq_dec q 1) as [->|Hq]; [left; lia|]. right. left.
      assert (1 < q) by (destruct q as [|[|]]; lia). split; [nia|]. exists q. auto.
  Qed.

  Lemma tick_correct n c en : cinv n c -> forall fuel i, i < length ms -> rank i <= fuel ->
    tick ms par fuel c en false i = en && ((n + 1) mod mv ms i =? 0).
  Proof.
    intros Hc. induction fuel as [|fuel IH]; intros i Hi Hr.
    - exfalso. unfold rank in Hr. destruct (par i); [destruct (pow2b _)|]; lia.
    - cbn [tick]. destruct (par i) as [p|] eqn:Ep.
      + destruct (rank_parent i p Hi Ep) as [R1 R2]. destruct (parent_cases i p Hi Ep) as [E|[(L & q & Hq & Eq)|(L & Proot & b & q & Eb & Hb & Hq & Eq)]].
        * destruct (Nat.eqb_spec (mv ms p) (mv ms i)); [|lia]. rewrite IH by (clear - Hr R1 R2; lia). rewrite E. reflexivity.
        * destruct (Nat.eqb_spec (mv ms p) (mv ms i)); [lia|]. destruct (Nat.ltb_spec (mv ms p) (mv ms i)); [|lia]. rewrite IH by (clear - Hr R1 R2; lia).
          assert (mv ms i / mv ms p = q) as Ed. { rewrite Eq, Nat.mul_comm. apply Nat.div_mul. pose proof (mv_pos p R2). lia. }
          rewrite (Hc i Hi) by (rewrite Ep; exact L). unfold cnt_val. rewrite Ep. cbv zeta. rewrite Ed.
          pose proof (tick_mul n (mv ms p) q ltac:(pose proof (mv_pos p R2); lia) ltac:(lia)) as K. rewrite <- Eq in K. rewrite <- K.
          destruct en, (Nat.eqb ((n + 1) mod mv ms p) 0), (Nat.eqb (q - 1 - (n / mv ms p) mod q) 0); reflexivity.
        * destruct (Nat.eqb_spec (mv ms p) (mv ms i)); [lia|]. destruct (Nat.ltb_spec (mv ms p) (mv ms i)); [lia|].
          destruct fuel as [|fuel]; [exfalso; unfold rank in Hr, R1; rewrite Ep, Proot in *; destruct (pow2b _); lia|]. cbn [cntr_reg]. rewrite Proot.
          rewrite (Hc p R2) by (rewrite Proot; exact I). unfold cnt_val. rewrite Proot.
          assert (2 ^ log2ceil (mv ms i) = mv ms i) as ->.
          { unfold log2ceil. pose proof (mv_pos i Hi). destruct (Nat.leb_spec (mv ms i) 1); [lia|]. rewrite Eb, Nat.log2_up_pow2 by lia. reflexivity. }
          rewrite Eq. rewrite tick_bits by (pose proof (mv_pos i Hi); lia). apply andb_comm.
      + rewrite (Hc i Hi) by (rewrite Ep; exact I). unfold cnt_val. rewrite Ep. rewrite tick_root by (pose proof (mv_pos i Hi); lia). cbn [negb]. rewrite andb_true_r. apply andb_comm.
  Qed.

  Lemma cnt_val_0 i : i < length ms -> (match par i with None => True | Some p => mv ms p < mv ms i end) -> cnt_val 0 i = cnt_reload ms par i.
  Proof.
    intros Hi Hp. unfold cnt_val, cnt_reload. destruct (par i) as [p|] eqn:Ep.
    - destruct (rank_parent i p Hi Ep) as [_ R2]. pose proof (mv_pos p R2). rewrite Nat.div_0_l by lia.
      assert (mv ms i / mv ms p <> 0). { intros E. apply Nat.div_small_iff in E; lia. } cbv zeta. rewrite Nat.mod_0_l by assumption. lia.
    - pose proof (mv_pos i Hi). rewrite Nat.mod_0_l by lia. lia.
  Qed.
  Lemma cinv_step n c (en rst : bool) : cinv n c -> cinv (if rst then 0 else if en then n + 1 else n) (cnt_next ms par (length ms + 2) c en rst).
  Proof.
    intros Hc i Hi Hp. unfold cnt_next. cbv zeta. destruct rst.
    - cbn [orb]. symmetry. apply cnt_val_0; assumption.
    - cbn [orb]. rewrite (Hc i Hi Hp). unfold cnt_val in *. unfold cnt_reload. destruct (par i) as [p|] eqn:Ep.
      + destruct (rank_parent i p Hi Ep) as [_ R2]. rewrite (tick_correct n c en Hc) by (auto using rank_bound). cbv zeta.
        pose proof (mv_pos p R2) as P2. assert (0 < mv ms i / mv ms p) as Hq by (apply Nat.div_str_pos; lia).
        set (q := mv ms i / mv ms p) in *. clearbody q. set (P := mv ms p) in *. clearbody P. clear - P2 Hq. set (m := n / P).
        destruct en; cbn [andb]; [|reflexivity].
        destruct (Nat.eqb_spec ((n + 1) mod P) 0) as [E|E]; cbn [andb].
        * assert ((n + 1) / P = m + 1) as ->.
          { unfold m. pose proof (Nat.div_mod (n + 1) P ltac:(lia)) as D. rewrite E in D. set (k := (n + 1) / P) in *. clearbody k.
            assert (0 < k) by (destruct k; lia). enough (n / P = k - 1) by lia. symmetry. apply (Nat.div_unique _ _ (k - 1) (P - 1)); [lia|]. nia. }
          rewrite (wdec_cnt q) by (generalize (m mod q); clear - Hq; intros; lia). apply count_step. exact Hq.
        * assert ((n + 1) / P = m) as ->; [|reflexivity].
          unfold m. pose proof (Nat.div_mod n P ltac:(lia)) as D. pose proof (Nat.mod_upper_bound n P ltac:(lia)) as U. set (k := n / P) in *. set (r := n mod P) in *. clearbody k r.
          assert (r + 1 < P) as L. { destruct (Nat.eq_dec (r + 1) P); [|lia]. exfalso. apply E. replace (n + 1) with ((k + 1) * P) by nia. apply Nat.mod_mul. lia. }
          symmetry. apply (Nat.div_unique _ _ k (r + 1)); lia.
      + pose proof (mv_pos i Hi) as P2. set (t := mv ms i) in *. clearbody t. destruct en; cbn [andb]; [|reflexivity].
        rewrite (wdec_cnt t) by (generalize (n mod t); clear - P2; intros; lia). apply count_step. lia.
  Qed.
End T.

(** ** the sorted list *)
Lemma insert_perm x l : Permutation (insert_timer x l) (x :: l).
Proof. induction l as [|y l IH]; cbn [insert_timer]; [apply Permutation_refl|]. destruct (_ <? _); [|apply Permutation_refl]. rewrite IH. apply perm_swap. Qed.
Lemma sort_timers_perm l : Permutation (sort_timers l) l.
Proof. induction l as [|x l IH]; [apply Permutation_refl|]. cbn [sort_timers fold_right]. rewrite insert_perm. constructor. exact IH. Qed.
Lemma enum_nth : forall (ps : list nat) k o, nth_error (combine (seq o (length ps)) ps) k = option_map (fun p => (o + k, p)) (nth_error ps k).
Proof. induction ps as [|p ps IH]; intros k o; cbn [length seq combine]; [destruct k; reflexivity|]. destruct k as [|k]; cbn [nth_error option_map]; [rewrite Nat.add_0_r; reflexivity|].
  rewrite IH. destruct (nth_error ps k); cbn; [|reflexivity]. do 2 f_equal. lia. Qed.
Lemma enum_In ps k p : In (k, p) (enum_timers ps) <-> nth_error ps k = Some p.
Proof.
  unfold enum_timers. split.
  - intros H. apply In_nth_error in H. destruct H as [j H]. rewrite enum_nth in H. destruct (nth_error ps j) eqn:E; [|discriminate]. cbn in H. injection H as <- <-. exact E.
  - intros H. apply (nth_error_In _ k). rewrite enum_nth, H. reflexivity.
Qed.

Definition sms (ps : list nat) := map snd (sorted_timers ps).
Lemma sorted_In ps k p : In (k, p) (sorted_timers ps) <-> nth_error ps k = Some p /\ p <> 1.
Proof.
  unfold sorted_timers. split.
  - intros H. apply (Permutation_in _ (sort_timers_perm _)) in H. apply filter_In in H. destruct H as [H1 H2]. apply enum_In in H1. split; [exact H1|]. cbn in H2. destruct (Nat.eqb_spec p 1); [discriminate|assumption].
  - intros [H1 H2]. apply (Permutation_in _ (Permutation_sym (sort_timers_perm _))). apply filter_In. split; [apply enum_In; exact H1|]. cbn. destruct (Nat.eqb_spec p 1); [contradiction|reflexivity].
Qed.
Lemma sms_nth ps i : i < length (sms ps) -> nth i (sms ps) 0 = snd (nth i (sorted_timers ps) (0, 0)).
Proof. intros _. unfold sms. change 0 with (snd (0, 0)) at 1. apply map_nth. Qed.
Lemma sms_gt1 ps : Forall (fun p => 1 <= p) ps -> forall i, i < length (sms ps) -> 1 < nth i (sms ps) 0.
Proof.
  intros Hp i Hi. rewrite sms_nth by exact Hi. unfold sms in Hi. rewrite map_length in Hi. pose proof (nth_In (sorted_timers ps) (0, 0) Hi) as H.
  destruct (nth i (sorted_timers ps) (0, 0)) as [k p]. apply sorted_In in H. destruct H as [H1 H2]. apply nth_error_In in H1. rewrite Forall_forall in Hp. specialize (Hp p H1). cbn. lia.
Qed.

Lemma enabled_snoc h i : enabled_since (h ++ [i]) = (let '(en, rst) := i in if rst then 0 else if en then enabled_since h + 1 else enabled_since h).
Proof. unfold enabled_since. rewrite fold_left_app. reflexivity. Qed.

Lemma timers_inv ps h : Forall (fun p => 1 <= p) ps ->
  cinv (sms ps) (resolve_sharing (sms ps)) (enabled_since h) (final (timers_step ps) (timers_init ps) h).
Proof.
  intros Hp. induction h as [|[en rst] h IH] using rev_ind.
  - intros i Hi Hx. symmetry. apply (cnt_val_0 (sms ps) (sms_gt1 ps Hp) _ (resolve_ok _)); assumption.
  - rewrite final_snoc, enabled_snoc. cbn [timers_step fst]. apply (cinv_step (sms ps) (sms_gt1 ps Hp) _ (resolve_ok _)). exact IH.
Qed.

Lemma timers_correct ps h en i t : Forall (fun p => 1 <= p) ps -> nth_error ps i = Some t ->
  nth_error (snd (timers_step ps (final (timers_step ps) (timers_init ps) h) (en, false))) i = Some (en && ((enabled_since h + 1) mod t =? 0)).
Proof.
  intros Hp Hi. pose proof (timers_inv ps h Hp) as Hc. set (c := final _ _ h) in *. clearbody c. cbn [timers_step snd]. rewrite nth_error_map.
  unfold enum_timers. rewrite enum_nth, Hi. cbn [option_map snd fst Nat.add]. f_equal. destruct (Nat.eqb_spec t 1) as [->|Ht].
  - rewrite Nat.mod_1_r. cbn. rewrite andb_true_r. reflexivity.
  - destruct (find _ (seq 0 (length (sorted_timers ps)))) as [j|] eqn:F.
    + apply find_some in F. destruct F as [F1 F2]. apply in_seq in F1. apply Nat.eqb_eq in F2.
      assert (j < length (sms ps)) as Hj by (unfold sms; rewrite map_length; lia).
      change (map snd (sorted_timers ps)) with (sms ps). rewrite (tick_correct (sms ps) (sms_gt1 ps Hp) _ (resolve_ok _) (enabled_since h) c en Hc _ j Hj (rank_bound _ _ j)).
      assert (mv (sms ps) j = t) as ->; [|reflexivity]. unfold mv. rewrite sms_nth by exact Hj.
      pose proof (nth_In (sorted_timers ps) (0, 0) (n := j) ltac:(lia)) as H. destruct (nth j (sorted_timers ps) (0, 0)) as [k p]. cbn in F2 |- *. subst k.
      apply sorted_In in H. destruct H as [H _]. congruence.
    + exfalso. assert (In (i, t) (sorted_timers ps)) as Hin by (apply sorted_In; auto). apply In_nth with (d := (0, 0)) in Hin. destruct Hin as (j & Hj & Ej).
      assert (In j (seq 0 (length (sorted_timers ps)))) as Hin by (apply in_seq; lia). pose proof (find_none _ _ F j Hin) as Hf. cbv beta in Hf. rewrite Ej in Hf. cbn in Hf. rewrite Nat.eqb_refl in Hf. discriminate.
Qed.

Lemma log2ceil_gt_pred q : 1 < q -> q <= 2 ^ log2ceil q. Proof. intros _. apply log2ceil_ge. Qed.

(** ** dynamic timer *)
Lemma mod_step n P : 0 < P -> (n + 1) mod P = if n mod P =? P - 1 then 0 else n mod P + 1.
Proof.
  intros H. pose proof (Nat.mod_upper_bound n P ltac:(lia)) as U. pose proof (Nat.div_mod n P ltac:(lia)) as D. set (r := n mod P) in *. set (k := n / P) in *. clearbody r k.
  destruct (Nat.eqb_spec r (P - 1)) as [E|E].
  - replace (n + 1) with ((k + 1) * P) by nia. apply Nat.mod_mul. lia.
  - symmetry. apply (Nat.mod_unique _ _ k); lia.
Qed.
Lemma dyn_inv w P h : 1 <= P -> P < 2 ^ w ->
  final (dyn_step w) 0 (map (fun i => mk_di P (fst i) (snd i)) h) = enabled_since h mod P.
Proof.
  intros H1 H2. induction h as [|[en rst] h IH] using rev_ind; [cbn; symmetry; apply Nat.mod_0_l; lia|].
  rewrite map_app. cbn [map]. rewrite final_snoc, IH, enabled_snoc. unfold dyn_step. cbn [fst snd di_period di_en di_rst]. rewrite wdec_pos by lia.
  destruct rst; [cbn [orb]; symmetry; apply Nat.mod_0_l; lia|]. cbn [orb]. destruct en; cbn [andb]; [|reflexivity].
  rewrite mod_step by lia. pose proof (Nat.mod_upper_bound (enabled_since h) P ltac:(lia)) as U. revert U. generalize (enabled_since h mod P). intros r U.
  destruct (Nat.eqb_spec r (P - 1)); [reflexivity|]. apply winc_small. lia.
Qed.
Lemma dyn_correct w P h en rst : 1 <= P -> P < 2 ^ w ->
  snd (dyn_step w (final (dyn_step w) 0 (map (fun i => mk_di P (fst i) (snd i)) h)) (mk_di P en rst)) = en && negb rst && ((enabled_since h + 1) mod P =? 0).
Proof.
  intros H1 H2. rewrite dyn_inv by assumption. unfold dyn_step. cbn [snd di_period di_en di_rst]. rewrite wdec_pos by lia. rewrite mod_step by lia.
  generalize (enabled_since h mod P). intros r. destruct (Nat.eqb_spec r (P - 1)); cbn [Nat.eqb]; [destruct en, rst; reflexivity|].
  replace (r + 1 =? 0) with false by (symmetry; apply Nat.eqb_neq; clear; lia). rewrite andb_false_r. reflexivity.
Qed.
Lemma dyn_free_never w P : forall n, 1 < P -> P < 2 ^ w -> outs (dyn_free_step w) 0 (repeat P n) = repeat false n.
Proof.
  intros n H1 H2. induction n as [|n IH]; [reflexivity|]. cbn [repeat]. rewrite outs_cons.
  assert (dyn_free_step w 0 P = (0, false)) as E.
  { unfold dyn_free_step. rewrite wdec_pos by lia. destruct (Nat.eqb_spec 0 (P - 1)); [lia|]. f_equal. unfold wrap. rewrite Nat.mod_small; lia. }
  rewrite E. cbn [fst snd]. rewrite IH. reflexivity.
Qed.
Lemma dyn_free_one w : forall n, 0 < w -> outs (dyn_free_step w) 0 (repeat 1 n) = repeat true n.
Proof.
  intros n H. induction n as [|n IH]; [reflexivity|]. cbn [repeat]. rewrite outs_cons.
  assert (dyn_free_step w 0 1 = (0, true)) as E.
  { unfold dyn_free_step. rewrite wdec_pos; [reflexivity|lia|]. destruct w; [lia|]. cbn. pose proof (pow2_pos w). lia. }
  rewrite E. cbn [fst snd]. rewrite IH. reflexivity.
Qed.

(** ** oversample *)
Lemma samples_snoc h st sig : samples (h ++ [(st, sig)]) = if st then samples h ++ [sig] else samples h.
Proof. unfold samples. rewrite filter_app, map_app. cbn [filter fst]. destruct st; cbn [map snd]; [reflexivity|apply app_nil_r]. Qed.
Lemma ones_app a b : ones (a ++ b) = ones a + ones b.
Proof. unfold ones. rewrite filter_app, app_length. reflexivity. Qed.
Lemma ones_le l : ones l <= length l.
Proof. unfold ones. induction l as [|[] l IH]; cbn [filter length]; lia. Qed.
Lemma lastn_snoc {A} k (l : list A) x : k <= length l -> lastn (S k) (l ++ [x]) = lastn k l ++ [x].
Proof.
  intros H. unfold lastn. rewrite app_length. cbn [length]. replace (length l + 1 - S k) with (length l - k) by lia. rewrite skipn_app.
  replace (length l - k - length l) with 0 by lia. reflexivity.
Qed.
Lemma lastn_length {A} k (l : list A) : k <= length l -> length (lastn k l) = k.
Proof. intros H. unfold lastn. rewrite skipn_length. lia. Qed.
Lemma lastn_0 {A} (l : list A) : lastn 0 l = [].
Proof. unfold lastn. rewrite Nat.sub_0_r. apply skipn_all. Qed.
Lemma lastn_ones_le k l : ones (lastn k l) <= k.
Proof. pose proof (ones_le (lastn k l)) as H. unfold lastn in *. rewrite skipn_length in H. lia. Qed.

Lemma os_inv n h : 2 <= n ->
  final (os_step n) (os_init n) h = mk_os (n - 1 - length (samples h) mod n) (ones (lastn (length (samples h) mod n) (samples h))).
Proof.
  intros Hn. induction h as [|[st sig] h IH] using rev_ind.
  - rewrite final_nil. change (samples []) with (@nil bool). change (length (@nil bool)) with 0. rewrite Nat.mod_0_l by lia. rewrite Nat.sub_0_r. reflexivity.
  - rewrite final_snoc, IH, samples_snoc. unfold os_step. cbn [fst os_timer os_cntr]. destruct st; cbn [andb]; [|rewrite andb_false_r; reflexivity].
    rewrite app_length. cbn [length]. rewrite mod_step by lia. rewrite andb_true_r.
    pose proof (Nat.mod_upper_bound (length (samples h)) n ltac:(lia)) as U. pose proof (Nat.mod_le (length (samples h)) n ltac:(lia)) as Le. revert U Le. generalize (length (samples h) mod n). intros r U Le.
    pose proof (log2ceil_ge n) as Hlog. destruct (Nat.eqb_spec (n - 1 - r) 0) as [E|E].
    + destruct (Nat.eqb_spec r (n - 1)); [|lia]. rewrite lastn_0, Nat.sub_0_r. reflexivity.
    + destruct (Nat.eqb_spec r (n - 1)); [lia|]. rewrite wdec_pos by lia. f_equal; [lia|]. rewrite (Nat.add_1_r r), lastn_snoc by exact Le. rewrite ones_app.
      pose proof (lastn_ones_le r (samples h)) as Hle. destruct sig; cbn [andb ones filter length]; [|cbn; lia].
      rewrite winc_small; [reflexivity|]. rewrite Nat.pow_add_r. cbn [Nat.pow]. lia.
Qed.
Lemma os_outputs n h st sig : 2 <= n ->
  snd (os_step n (final (os_step n) (os_init n) h) (st, sig)) =
  (n / 2 <=? ones (lastn (length (samples h) mod n) (samples h)), st && ((length (samples h) + 1) mod n =? 0)).
Proof.
  intros Hn. rewrite os_inv by exact Hn. unfold os_step. cbn [snd os_timer os_cntr]. f_equal.
  - set (o := ones _). clearbody o. assert (0 < n / 2) by (apply Nat.div_str_pos; lia). revert H. generalize (n / 2). intros k H.
    destruct (Nat.ltb_spec (k - 1) o), (Nat.leb_spec k o); try reflexivity; lia.
  - rewrite mod_step by lia. pose proof (Nat.mod_upper_bound (length (samples h)) n ltac:(lia)) as U. revert U. generalize (length (samples h) mod n). intros r U.
    destruct (Nat.eqb_spec (n - 1 - r) 0), (Nat.eqb_spec r (n - 1)); try lia; cbn; rewrite ?andb_true_r; try reflexivity.
Qed.
Lemma os_done n h st sig : 2 <= n -> snd (snd (os_step n (final (os_step n) (os_init n) h) (st, sig))) = st && ((length (samples h) + 1) mod n =? 0).
Proof. intros Hn. rewrite os_outputs by exact Hn. reflexivity. Qed.
Lemma os_majority n h o : 2 <= n -> snd (os_step n (final (os_step n) (os_init n) h) (true, false)) = (o, true) -> o = majority n (samples (h ++ [(true, false)])).
Proof.
  intros Hn H. rewrite os_outputs in H by exact Hn. injection H as H1 H2. rewrite <- H1. rewrite samples_snoc. unfold majority.
  pose proof (Nat.mod_le (length (samples h)) n ltac:(lia)) as Le. pose proof (Nat.mod_upper_bound (length (samples h)) n ltac:(lia)) as U. rewrite mod_step in H2 by lia.
  revert H2 Le U. generalize (length (samples h) mod n). intros r H2 Le U. destruct (Nat.eqb_spec r (n - 1)) as [E|E].
  - assert (lastn n (samples h ++ [false]) = lastn r (samples h) ++ [false]) as -> by (replace n with (S r) by lia; apply lastn_snoc; exact Le). rewrite ones_app. cbn [ones filter length]. rewrite Nat.add_0_r. reflexivity.
  - apply Nat.eqb_eq in H2. lia.
Qed.

(** ** edge detector, register path *)
Lemma edge_final init h : final edge_step init h = last h init.
Proof. induction h as [|x h IH] using rev_ind; [reflexivity|]. rewrite final_snoc, last_last. reflexivity. Qed.
Lemma reg_path_next_len {A} (regs : list A) : forall d, length (reg_path_next d regs) = length regs.
Proof. induction regs as [|r regs IH]; intros d; cbn; [reflexivity|f_equal; apply IH]. Qed.
Lemma reg_path_shift {A} (regs : list A) : forall d, last regs d :: rev (reg_path_next d regs) = rev regs ++ [d].
Proof.
  induction regs as [|r regs IH]; intros d; [reflexivity|]. cbn [reg_path_next rev].
  rewrite <- (IH r). rewrite <- app_comm_cons. f_equal. destruct regs; [reflexivity|]. cbn. clear. revert a. induction regs as [|y regs IH]; intros a; [reflexivity|]. cbn in *. apply IH.
Qed.
Lemma reg_path_outs {A} : forall (ins regs : list A), outs reg_path_step regs ins = firstn (length ins) (rev regs ++ ins).
Proof.
  induction ins as [|d ins IH]; intros regs; [rewrite outs_nil; reflexivity|]. rewrite outs_cons. unfold reg_path_step at 1 2. cbn [fst snd]. rewrite IH. cbn [length].
  replace (rev regs ++ d :: ins) with ((rev regs ++ [d]) ++ ins) by (rewrite <- app_assoc; reflexivity). rewrite <- reg_path_shift. reflexivity.
Qed.
