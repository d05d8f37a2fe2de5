From Verif Require Import Base SimRamModel SimRamProofs AsrModel AsrSpec.
From Coq Require Import Lia ZArith ZifyBool ZifyNat ZifyN.

Lemma ones_bit w i : N.testbit (N.ones (N.of_nat w)) (N.of_nat i) = (i <? w).
Proof. exact (SimRamProofs.ones_bit 1 Nat.lt_0_1 w i). Qed.
Lemma gbr_bit v o w i : N.testbit (get_bit_range v o w) (N.of_nat i) = N.testbit v (N.of_nat (o + i)) && (i <? w).
Proof. exact (SimRamProofs.gbr_bit 1 Nat.lt_0_1 v o w i). Qed.

Lemma set_bit start w base v b : nbit (set_bit_range base start w v) b =
  if (start <=? b) && (b <? start + w) then nbit v (b - start) else nbit base b.
Proof.
  unfold nbit, set_bit_range. rewrite N.lor_spec, N.ldiff_spec.
  destruct (Nat.leb_spec start b) as [Hb|Hb]; cbn [andb].
  - rewrite !N.shiftl_spec_high' by lia. replace (N.of_nat b - N.of_nat start)%N with (N.of_nat (b - start)) by lia.
    rewrite N.land_spec, ones_bit. destruct (Nat.ltb_spec b (start + w)), (Nat.ltb_spec (b - start) w); cbn [negb]; lia.
  - rewrite !N.shiftl_spec_low by lia. cbn [negb]. now rewrite Bool.andb_true_r, Bool.orb_false_r.
Qed.

Lemma merge_gen strb new b : forall n cur,
  nbit (fold_left (fun c i => if N.testbit strb (N.of_nat i) then set_bit_range c (i * 8) 8 (get_bit_range new (i * 8) 8) else c) (seq 0 n) cur) b =
  if (b <? 8 * n) && nbit strb (b / 8) then nbit new b else nbit cur b.
Proof.
  induction n as [|n IH]; intros cur.
  - cbn [seq fold_left]. destruct (Nat.ltb_spec b (8 * 0)); [lia|reflexivity].
  - rewrite seq_S, fold_left_app. cbn [fold_left Nat.add].
    set (c := fold_left _ (seq 0 n) cur) in *. specialize (IH cur). fold c in IH.
    pose proof (Nat.div_mod b 8 ltac:(lia)) as Hd. pose proof (Nat.mod_upper_bound b 8 ltac:(lia)) as Hm.
    destruct (N.testbit strb (N.of_nat n)) eqn:E.
    + rewrite set_bit. destruct (Nat.leb_spec (n * 8) b), (Nat.ltb_spec b (n * 8 + 8)); cbn [andb].
      * assert (b / 8 = n) as -> by lia. unfold nbit. rewrite gbr_bit, E. replace (n * 8 + (b - n * 8)) with b by lia.
        destruct (Nat.ltb_spec (b - n * 8) 8), (Nat.ltb_spec b (8 * S n)); try lia. now rewrite Bool.andb_true_r.
      * rewrite IH. destruct (Nat.ltb_spec b (8 * n)), (Nat.ltb_spec b (8 * S n)); try lia; reflexivity.
      * rewrite IH. destruct (Nat.ltb_spec b (8 * n)), (Nat.ltb_spec b (8 * S n)); try lia; reflexivity.
      * rewrite IH. destruct (Nat.ltb_spec b (8 * n)), (Nat.ltb_spec b (8 * S n)); try lia; reflexivity.
    + rewrite IH. destruct (Nat.ltb_spec b (8 * n)), (Nat.ltb_spec b (8 * S n)); try lia; try reflexivity.
      assert (b / 8 = n) as -> by lia. unfold nbit. now rewrite E.
Qed.

Section Asr.
  Variable cs : nat.
  Lemma merge_bit strb cur new b : b < 8 * cs -> nbit (merge cs strb cur new) b = if nbit strb (b / 8) then nbit new b else nbit cur b.
  Proof. intros Hb. unfold merge. rewrite merge_gen. destruct (Nat.ltb_spec b (8 * cs)); [reflexivity|lia]. Qed.

  Lemma div8 b : b < 8 * cs -> b / 8 < cs.
  Proof. intros. apply Nat.div_lt_upper_bound; lia. Qed.

  Lemma write_word_bit d w k j b : b < 8 * cs ->
    (all_or_nothing cs (ww_strb w) \/ partial_ok cs d k w) ->
    mem_bit (write_word cs d (ww_data w) (ww_strb w) k) j b =
    if k =? j then (if nbit (ww_strb w) (b / 8) then data_bit (ww_data w) b else mem_bit d j b) else mem_bit d j b.
  Proof.
    intros Hb Hok. unfold write_word.
    destruct (N.eqb_spec (ww_strb w) 0) as [E0|E0].
    { rewrite E0. unfold nbit. rewrite N.bits_0. now destruct (k =? j). }
    destruct (N.eqb_spec (ww_strb w) (allMask cs)) as [Ef|Ef]; cbn [negb].
    { unfold mem_bit at 1, dict_set. rewrite get_cons. destruct (Nat.eqb_spec k j); [|reflexivity].
      rewrite Ef. unfold allMask, nbit. rewrite ones_bit. pose proof (div8 b Hb). destruct (Nat.ltb_spec (b / 8) cs); [reflexivity|lia]. }
    destruct Hok as [[H|H]|[Hi Hm]]; [congruence|unfold allMask in Ef; congruence|].
    destruct (match dict_get d k with | Some (CVal v m) => (v, m) | Some (CInt v) => (v, allMask cs) | _ => (0%N, 0%N) end) as [cv cm] eqn:E.
    assert (Hc : forall b, mem_bit d k b = if nbit cm b then Some (nbit cv b) else None).
    { intros b0. unfold mem_bit. destruct (dict_get d k) as [[|v|v m]|] eqn:G; injection E as <- <-; cbn [cell_bit]; try reflexivity. now destruct (Hi v). }
    assert (Hn : N.eqb (merge cs (ww_strb w) cm (hv_vld (ww_data w))) (allMask cs) = false).
    { apply N.eqb_neq. intros H. apply Hm. intros b0 Hb0.
      assert (nbit (merge cs (ww_strb w) cm (hv_vld (ww_data w))) b0 = (b0 <? cs)) as <- by (rewrite H; apply ones_bit).
      rewrite merge_bit by assumption. rewrite Hc. destruct (nbit (ww_strb w) (b0 / 8)); [reflexivity|]. now destruct (nbit cm b0). }
    rewrite Hn. unfold mem_bit at 1, dict_set. rewrite get_cons. destruct (Nat.eqb_spec k j) as [->|]; [|reflexivity].
    cbn [cell_bit]. rewrite !merge_bit by assumption. rewrite Hc. unfold data_bit. cbn [cell_bit].
    now destruct (nbit (ww_strb w) (b / 8)).
  Qed.
  Lemma write_word_other d w s k j : k <> j -> dict_get (write_word cs d w s k) j = dict_get d j.
  Proof.
    intros H. unfold write_word. destruct (N.eqb s 0); [reflexivity|].
    destruct (negb _); [destruct (match dict_get d k with | Some (CVal v m) => (v, m) | Some (CInt v) => (v, allMask cs) | _ => (0%N, 0%N) end)|];
      unfold dict_set; rewrite get_cons; destruct (Nat.eqb_spec k j); congruence.
  Qed.

  Lemma strobes_tail d k w ws : strobes_ok cs d k (w :: ws) -> strobes_ok cs (write_word cs d (ww_data w) (ww_strb w) k) (S k) ws.
  Proof.
    intros H i x Hx. destruct (H (S i) x Hx) as [G|[G1 G2]]; [now left|right].
    replace (S k + i) with (k + S i) by lia. split.
    - intros v. rewrite write_word_other by lia. apply G1.
    - intros F. apply G2. intros b Hb. specialize (F b Hb). unfold mem_bit in *. rewrite write_word_other in F by lia. exact F.
  Qed.

  Lemma write_beats_ok : forall n d q k, n <= length q -> framed (firstn n q) -> exists d', write_beats cs d q k n = Some (d', skipn n q).
  Proof.
    induction n as [|n IH]; intros d q k Hn Hf; [exists d; reflexivity|].
    destruct q as [|w q]; cbn [length] in Hn; [lia|]. cbn [write_beats skipn].
    assert (ww_last w = (n =? 0)) as ->.
    { specialize (Hf 0 w eq_refl). cbn [firstn length] in Hf. rewrite firstn_length_le in Hf by lia.
      destruct (Nat.eqb_spec n 0) as [->|]; [apply Hf; reflexivity|]. destruct (ww_last w); [|reflexivity]. destruct Hf as [Hf _]. specialize (Hf eq_refl). lia. }
    rewrite Bool.eqb_reflx. apply IH; [lia|].
    intros i x Hx. specialize (Hf (S i) x Hx). cbn [firstn length] in Hf. lia.
  Qed.
  Lemma write_beats_bits : forall n d q k d' q', write_beats cs d q k n = Some (d', q') -> strobes_ok cs d k (firstn n q) ->
    q' = skipn n q /\ n <= length q /\ framed (firstn n q) /\ forall j b, b < 8 * cs -> mem_bit d' j b = put (mem_bit d) k (firstn n q) j b.
  Proof.
    induction n as [|n IH]; intros d q k d' q' H Hs.
    - injection H as <- <-. repeat split; try lia.
      + intros H0; destruct i; discriminate.
      + intros H0; destruct i; discriminate.
      + intros j b _. unfold put. cbn [firstn]. destruct (j <? k); [reflexivity|]. now destruct (j - k).
    - destruct q as [|w q]; [discriminate|]. cbn [write_beats] in H.
      destruct (Bool.eqb (ww_last w) (n =? 0)) eqn:El; [|discriminate].
      apply Bool.eqb_prop in El. cbn [firstn] in Hs. pose proof (Hs 0 w eq_refl) as H0. rewrite Nat.add_0_r in H0.
      destruct (IH _ _ _ _ _ H (strobes_tail _ _ _ _ Hs)) as (-> & Hl & Hf & Hb).
      cbn [skipn length firstn]. repeat split; try lia.
      + intros Hx. destruct i as [|i]; cbn [nth_error length] in *.
        * injection H1 as <-. rewrite El in Hx. apply Nat.eqb_eq in Hx. subst n. reflexivity.
        * apply Hf in H1. rewrite firstn_length_le in * by lia. lia.
      + intros Hx. destruct i as [|i]; cbn [nth_error length] in *.
        * injection H1 as <-. rewrite El. rewrite firstn_length_le in Hx by lia. apply Nat.eqb_eq. lia.
        * apply Hf in H1. apply H1. lia.
      + intros j b Hbb. rewrite Hb by assumption. unfold put.
        pose proof (write_word_bit d w k j b Hbb H0) as Hw.
        destruct (Nat.ltb_spec j (S k)) as [Hj|Hj].
        * destruct (Nat.eqb_spec k j) as [<-|Hne].
          -- rewrite Hw, Nat.ltb_irrefl, Nat.sub_diag. reflexivity.
          -- rewrite Hw. destruct (Nat.ltb_spec j k); [reflexivity|lia].
        * destruct (Nat.ltb_spec j k); [lia|]. replace (j - k) with (S (j - S k)) by lia. cbn [nth_error].
          destruct (Nat.eqb_spec k j); [lia|]. now rewrite Hw.
  Qed.

  Lemma write_spec d q r : 0 < cs -> Nat.divide cs (rq_addr r) -> rq_size r <= length q -> framed (firstn (rq_size r) q) ->
    strobes_ok cs d (rq_addr r / cs) (firstn (rq_size r) q) ->
    exists d', do_write cs d q r = Some (d', skipn (rq_size r) q) /\
      forall k b, b < 8 * cs -> mem_bit d' k b = put (mem_bit d) (rq_addr r / cs) (firstn (rq_size r) q) k b.
  Proof.
    intros Hc Hd Hl Hf Hs. unfold do_write. apply Nat.mod_divide in Hd; [|lia]. rewrite Hd. cbn [Nat.eqb negb].
    destruct (write_beats_ok (rq_size r) d q (rq_addr r / cs) Hl Hf) as [d' E]. exists d'. split; [exact E|].
    destruct (write_beats_bits _ _ _ _ _ _ E Hs) as (_ & _ & _ & H). exact H.
  Qed.
  Lemma full_ok d k ws : Forall (fun w => all_or_nothing cs (ww_strb w)) ws -> strobes_ok cs d k ws.
  Proof. intros H i w Hw. left. rewrite Forall_forall in H. apply H. eapply nth_error_In. exact Hw. Qed.

  Lemma read_beats_ok d id : forall n k, (forall i, i < n -> exists c, dict_get d (k + i) = Some c /\ c <> CNone) ->
    exists l, read_beats d id k n = Some l.
  Proof.
    induction n as [|n IH]; intros k H; [now exists []|]. cbn [read_beats].
    destruct (H 0 ltac:(lia)) as (c & E & Hc). rewrite Nat.add_0_r in E. rewrite E.
    destruct (IH (S k)) as [l ->]. { intros i Hi. replace (S k + i) with (k + S i) by lia. apply H. lia. }
    destruct c; [congruence| |]; eauto.
  Qed.
  Lemma read_beats_spec d id : forall n k l, read_beats d id k n = Some l ->
    length l = n /\ forall i w, nth_error l i = Some w ->
      rw_id w = id /\ (rw_last w = true <-> S i = n) /\ dict_get d (k + i) = Some (rw_data w).
  Proof.
    induction n as [|n IH]; intros k l H; cbn [read_beats] in H.
    - injection H as <-. split; [reflexivity|]. intros [|i]; discriminate.
    - destruct (dict_get d k) as [c|] eqn:E; [|discriminate].
      destruct (read_beats d id (S k) n) as [l'|] eqn:El; [|destruct c; discriminate].
      destruct (IH _ _ El) as [Hl Hw]. assert (l = mk_rw id c (n =? 0) :: l') as -> by (destruct c; congruence).
      split; [cbn; lia|]. intros [|i] w Hx; cbn [nth_error] in Hx.
      + injection Hx as <-. cbn [rw_id rw_last rw_data]. rewrite Nat.add_0_r. repeat split; auto; intros; destruct (Nat.eqb_spec n 0); try lia; congruence.
      + destruct (Hw _ _ Hx) as (A & B & C). replace (k + S i) with (S k + i) by lia. repeat split; auto; intros Hz; [apply B in Hz; lia|apply B; lia].
  Qed.
  Lemma do_read_answers d r l : do_read cs d r = Some l -> answers cs d r l.
  Proof.
    unfold do_read. destruct (negb _); [discriminate|]. intros H. destruct (read_beats_spec _ _ _ _ _ H) as [Hl Hw].
    split; [exact Hl|]. intros i w Hx. destruct (Hw _ _ Hx) as (A & B & C). repeat split; auto; try apply B.
    intros b _. unfold mem_bit. now rewrite C.
  Qed.
  Lemma read_spec d r : 0 < cs -> Nat.divide cs (rq_addr r) -> (forall i, i < rq_size r -> exists c, dict_get d (rq_addr r / cs + i) = Some c /\ c <> CNone) ->
    exists l, do_read cs d r = Some l /\ answers cs d r l.
  Proof.
    intros Hc [x Hx] H. destruct (read_beats_ok d (rq_id r) _ _ H) as [l E]. exists l.
    assert (do_read cs d r = Some l).
    { unfold do_read. rewrite Hx at 1 2. rewrite Nat.div_mul by lia. rewrite Nat.eqb_refl. exact E. }
    split; [assumption|]. now apply do_read_answers.
  Qed.

  (** ** the queues *)
  Lemma pop_nil : pop [] = ([], []). Proof. reflexivity. Qed.
  Lemma pop_one (l : list req) : length l <= 1 -> pop l = ([], l).
  Proof. destruct l as [|x [|y l]]; cbn [length]; intros; try reflexivity; lia. Qed.

  Lemma checks_app : forall a b s, checks cs s (a ++ b) = match checks cs s a with None => None | Some s' => checks cs s' b end.
  Proof. induction a as [|i a IH]; intros b s; [reflexivity|]. cbn [app checks]. destruct (check cs s i); [apply IH|reflexivity]. Qed.

  (** one check in a state without waiting requests *)
  Definition idle_q (s : asr) : Prop := ar_q s = [] /\ aw_q s = [] /\ r_pend s = [].
  Lemma check_step s i s' : idle_q s -> length (in_ar i) <= 1 -> length (in_aw i) <= 1 -> check cs s i = Some s' ->
    idle_q s' /\
    (exists ws, r_out s' = r_out s ++ ws /\
       match in_ar i with [] => ws = [] | r :: _ => do_read cs (mem s) r = Some ws end) /\
    let pend := w_pend s ++ in_aw i in
    let q := w_q s ++ in_w i in
    match pend with
    | [] => w_pend s' = [] /\ w_q s' = q /\ b_out s' = b_out s /\ mem s' = mem s
    | r :: pend' =>
        if rq_size r <=? length q then
          w_pend s' = pend' /\ do_write cs (mem s) q r = Some (mem s', w_q s') /\ b_out s' = b_out s ++ [rq_id r]
        else w_pend s' = pend /\ w_q s' = q /\ b_out s' = b_out s /\ mem s' = mem s
    end.
  Proof.
    intros (Ha & Hb & Hc) H1 H2 H. unfold check, check_r in H. cbn [ar_q aw_q w_q r_pend w_pend r_out b_out mem] in H.
    rewrite Ha, Hb, Hc in H. cbn [app] in H. rewrite (pop_one (in_ar i) H1) in H.
    set (s1 := fun ws => mk_asr [] (in_aw i) (w_q s ++ in_w i) [] (w_pend s) (r_out s ++ ws) (b_out s) (mem s)).
    assert (exists ws, match in_ar i with [] => ws = [] | r :: _ => do_read cs (mem s) r = Some ws end /\ check_w cs (s1 ws) = Some s') as (ws & Hws & H').
    { destruct (in_ar i) as [|r l]; [exists []; split; [reflexivity|]; unfold s1; now rewrite app_nil_r|].
      destruct l as [|]; [|cbn in H1; lia]. destruct (do_read cs (mem s) r) as [ws|]; [|discriminate]. exists ws. split; [reflexivity|exact H]. }
    clear H. unfold check_w, s1 in H'. cbn [ar_q aw_q w_q r_pend w_pend r_out b_out mem] in H'.
    rewrite (pop_one (in_aw i) H2) in H'. cbv zeta.
    destruct (w_pend s ++ in_aw i) as [|r pend'].
    - injection H' as <-. cbn. repeat split. exists ws. auto.
    - destruct (rq_size r <=? length (w_q s ++ in_w i)).
      + destruct (do_write cs (mem s) (w_q s ++ in_w i) r) as [[d q]|]; [|discriminate]. injection H' as <-. cbn. repeat split. exists ws; auto.
      + injection H' as <-. cbn. repeat split. exists ws; auto.
  Qed.

  Lemma writes_snoc : forall rs d ws r, writes cs d ws (rs ++ [r]) =
    match writes cs d ws rs with None => None | Some (d', ws') => do_write cs d' ws' r end.
  Proof.
    induction rs as [|x rs IH]; intros d ws r; cbn [app writes].
    - destruct (do_write cs d ws r) as [[? ?]|]; reflexivity.
    - destruct (do_write cs d ws x) as [[? ?]|]; [apply IH|reflexivity].
  Qed.
  Lemma write_beats_more q2 : forall n d q k d' q', write_beats cs d q k n = Some (d', q') -> write_beats cs d (q ++ q2) k n = Some (d', q' ++ q2).
  Proof.
    induction n as [|n IH]; intros d q k d' q' H; cbn [write_beats] in *; [injection H as <- <-; reflexivity|].
    destruct q as [|w q]; [discriminate|]. cbn [app]. destruct (Bool.eqb _ _); [|discriminate]. now apply IH.
  Qed.
  Lemma do_write_more d q r q2 d' q' : do_write cs d q r = Some (d', q') -> do_write cs d (q ++ q2) r = Some (d', q' ++ q2).
  Proof. unfold do_write. destruct (negb _); [discriminate|]. apply write_beats_more. Qed.
  Lemma writes_more q2 : forall rs d q d' q', writes cs d q rs = Some (d', q') -> writes cs d (q ++ q2) rs = Some (d', q' ++ q2).
  Proof.
    induction rs as [|r rs IH]; intros d q d' q' H; cbn [writes] in *; [injection H as <- <-; reflexivity|].
    destruct (do_write cs d q r) as [[d1 q1]|] eqn:E; [|discriminate]. rewrite (do_write_more _ _ _ q2 _ _ E). now apply IH.
  Qed.

  (** the invariant of every schedule *)
  Definition inv (d0 : list (nat * cell)) (aws : list req) (ws : list wword) (s : asr) : Prop :=
    idle_q s /\ exists n, w_pend s = skipn n aws /\ n <= length aws /\ b_out s = map rq_id (firstn n aws) /\
      writes cs d0 ws (firstn n aws) = Some (mem s, w_q s).
  Lemma inv_init d0 : inv d0 [] [] (asr_init d0).
  Proof. split; [repeat split|]. exists 0. repeat split; auto. Qed.
  Lemma firstn_app_le {A} n (a b : list A) : n <= length a -> firstn n (a ++ b) = firstn n a.
  Proof. intros. rewrite firstn_app. replace (n - length a) with 0 by lia. now rewrite app_nil_r. Qed.
  Lemma skipn_app_le {A} n (a b : list A) : n <= length a -> skipn n (a ++ b) = skipn n a ++ b.
  Proof. intros. rewrite skipn_app. now replace (n - length a) with 0 by lia. Qed.
  Lemma firstn_S_skipn {A} n (l : list A) r t : skipn n l = r :: t -> firstn (S n) l = firstn n l ++ [r] /\ skipn (S n) l = t /\ n < length l.
  Proof.
    revert l. induction n as [|n IH]; intros [|x l] H; cbn [skipn] in *; try discriminate.
    - injection H as -> ->. cbn. repeat split; lia.
    - destruct (IH _ H) as (A1 & B1 & C1). rewrite firstn_cons, A1. cbn [length]. repeat split; auto; lia.
  Qed.
  Lemma inv_step d0 aws ws s i s' : inv d0 aws ws s -> length (in_ar i) <= 1 -> length (in_aw i) <= 1 -> check cs s i = Some s' ->
    inv d0 (aws ++ in_aw i) (ws ++ in_w i) s'.
  Proof.
    intros (Hq & n & Hp & Hn & Hb & Hw) H1 H2 H. destruct (check_step _ _ _ Hq H1 H2 H) as (Hq' & _ & Hc). cbv zeta in Hc.
    split; [exact Hq'|]. rewrite Hp in Hc. rewrite <- skipn_app_le in Hc by assumption.
    apply (writes_more (in_w i)) in Hw. rewrite <- (firstn_app_le n aws (in_aw i) Hn) in Hb, Hw.
    assert (Hn' : n <= length (aws ++ in_aw i)) by (rewrite app_length; lia).
    destruct (skipn n (aws ++ in_aw i)) as [|r t] eqn:E.
    - destruct Hc as (A & B & C & D). exists n. rewrite A, B, C, D, E. auto.
    - destruct (rq_size r <=? length (w_q s ++ in_w i)).
      + destruct Hc as (A & B & C). destruct (firstn_S_skipn _ _ _ _ E) as (F & G & L). exists (S n). rewrite A, C, F, G, map_app, Hb. repeat split; auto.
        rewrite writes_snoc, Hw. exact B.
      + destruct Hc as (A & B & C & D). exists n. rewrite A, B, C, D, E. auto.
  Qed.
  Lemma inv_run d0 : forall is aws ws s s', single is -> inv d0 aws ws s -> checks cs s is = Some s' -> inv d0 (aws ++ all_aw is) (ws ++ all_w is) s'.
  Proof.
    induction is as [|i is IH]; intros aws ws s s' Hs Hi H; cbn [checks all_aw all_w flat_map] in *.
    - injection H as <-. now rewrite !app_nil_r.
    - destruct (check cs s i) as [s1|] eqn:E; [|discriminate]. pose proof (Forall_inv Hs) as [H1 H2].
      rewrite !app_assoc. apply (IH _ _ s1); [exact (Forall_inv_tail Hs)| |exact H]. eapply inv_step; eauto.
  Qed.
  Lemma writes_order d0 is s : single is -> checks cs (asr_init d0) is = Some s ->
    exists n, n <= length (all_aw is) /\ b_out s = map rq_id (firstn n (all_aw is)) /\
      writes cs d0 (all_w is) (firstn n (all_aw is)) = Some (mem s, w_q s).
  Proof.
    intros Hs H. destruct (inv_run d0 is [] [] _ _ Hs (inv_init d0) H) as (_ & n & _ & Hn & Hb & Hw). exists n. auto.
  Qed.

  Lemma r_out_mono : forall is s s' aws ws d0, single is -> inv d0 aws ws s -> checks cs s is = Some s' -> exists l, r_out s' = r_out s ++ l.
  Proof.
    induction is as [|i is IH]; intros s s' aws ws d0 Hs Hi H; cbn [checks] in H.
    - injection H as <-. exists []. now rewrite app_nil_r.
    - destruct (check cs s i) as [s1|] eqn:E; [|discriminate]. pose proof (Forall_inv Hs) as [H1 H2].
      destruct (check_step _ _ _ (proj1 Hi) H1 H2 E) as (_ & (x & Hx & _) & _).
      destruct (IH _ _ _ _ _ (Forall_inv_tail Hs) (inv_step _ _ _ _ _ _ Hi H1 H2 E) H) as [l Hl]. exists (x ++ l). now rewrite Hl, Hx, app_assoc.
  Qed.
  Lemma reads_order d0 pre i post s1 s2 s : single (pre ++ i :: post) -> checks cs (asr_init d0) pre = Some s1 -> check cs s1 i = Some s2 ->
    checks cs s2 post = Some s ->
    exists ws later, r_out s2 = r_out s1 ++ ws /\ r_out s = r_out s2 ++ later /\
      match in_ar i with [] => ws = [] | r :: _ => answers cs (mem s1) r ws end.
  Proof.
    intros Hs Hp Hi Ho. apply Forall_app in Hs. destruct Hs as [Hs1 Hs2].
    pose proof (inv_run d0 pre [] [] _ _ Hs1 (inv_init d0) Hp) as Hv. pose proof (Forall_inv Hs2) as [H1 H2].
    destruct (check_step _ _ _ (proj1 Hv) H1 H2 Hi) as (_ & (x & Hx & Ha) & _).
    destruct (r_out_mono post s2 s _ _ d0 (Forall_inv_tail Hs2) (inv_step _ _ _ _ _ _ Hv H1 H2 Hi) Ho) as [l Hl].
    exists x, l. repeat split; auto. destruct (in_ar i); [exact Ha|]. now apply do_read_answers.
  Qed.

  (** ** progress: all data of the accepted writes came, and the checks go on *)
  Definition total (rs : list req) : nat := fold_right (fun r a => rq_size r + a) 0 rs.
  Lemma write_beats_len : forall n d q k d' q', write_beats cs d q k n = Some (d', q') -> length q = n + length q'.
  Proof.
    induction n as [|n IH]; intros d q k d' q' H; cbn [write_beats] in H; [injection H as <- <-; reflexivity|].
    destruct q as [|w q]; [discriminate|]. destruct (Bool.eqb _ _); [|discriminate]. cbn [length]. rewrite (IH _ _ _ _ _ H). reflexivity.
  Qed.
  Lemma do_write_len d q r d' q' : do_write cs d q r = Some (d', q') -> length q = rq_size r + length q'.
  Proof. unfold do_write. destruct (negb _); [discriminate|]. apply write_beats_len. Qed.
  Lemma drain : forall m s s', idle_q s -> length (w_pend s) <= m -> total (w_pend s) <= length (w_q s) ->
    checks cs s (repeat quiet m) = Some s' -> w_pend s' = [] /\ b_out s' = b_out s ++ map rq_id (w_pend s).
  Proof.
    induction m as [|m IH]; intros s s' Hq Hl Ht H; cbn [repeat checks] in H.
    - injection H as <-. destruct (w_pend s); [|cbn in Hl; lia]. cbn. now rewrite app_nil_r.
    - destruct (check cs s quiet) as [s1|] eqn:E; [|discriminate].
      destruct (check_step s quiet s1 Hq (Nat.le_0_l 1) (Nat.le_0_l 1) E) as (Hq1 & _ & Hc). cbv zeta in Hc. cbn [in_aw in_w quiet] in Hc. rewrite !app_nil_r in Hc.
      destruct (w_pend s) as [|r t] eqn:Ep.
      + destruct Hc as (A & B & C & D). destruct (IH s1 s' Hq1) as [X Y]; auto; try (rewrite A; cbn; lia). rewrite X, Y, A, C. cbn. auto.
      + change (rq_size r + total t <= length (w_q s)) in Ht. cbn [length] in Hl.
        destruct (Nat.leb_spec (rq_size r) (length (w_q s))); [|lia].
        destruct Hc as (A & B & C). pose proof (do_write_len _ _ _ _ _ B) as Hlen.
        destruct (IH s1 s' Hq1) as [X Y]; auto; try (rewrite A; lia). rewrite X, Y, A, C. cbn [map]. now rewrite <- app_assoc.
  Qed.
  Lemma writes_len : forall rs d q d' q', writes cs d q rs = Some (d', q') -> length q = total rs + length q'.
  Proof.
    induction rs as [|r rs IH]; intros d q d' q' H; cbn [writes] in H; [injection H as <- <-; reflexivity|].
    destruct (do_write cs d q r) as [[d1 q1]|] eqn:E; [|discriminate]. rewrite (do_write_len _ _ _ _ _ E), (IH _ _ _ _ H). unfold total. cbn. lia.
  Qed.
  Lemma total_split n rs : total rs = total (firstn n rs) + total (skipn n rs).
  Proof. revert rs. induction n as [|n IH]; intros [|r rs]; cbn; try reflexivity. unfold total in *. cbn. rewrite (IH rs). lia. Qed.
  Lemma all_done d0 is s s' : single is -> checks cs (asr_init d0) is = Some s -> fold_right (fun r a => rq_size r + a) 0 (all_aw is) <= length (all_w is) ->
    checks cs s (repeat quiet (length (all_aw is))) = Some s' -> b_out s' = map rq_id (all_aw is).
  Proof.
    intros Hs H Ht H'. destruct (inv_run d0 is [] [] _ _ Hs (inv_init d0) H) as (Hq & n & Hp & Hn & Hb & Hw). cbn [app] in *.
    pose proof (writes_len _ _ _ _ _ Hw) as Hl. fold (total (all_aw is)) in Ht. rewrite (total_split n) in Ht.
    destruct (drain (length (all_aw is)) s s' Hq) as [_ ->].
    - rewrite Hp, skipn_length. lia.
    - rewrite Hp. lia.
    - exact H'.
    - rewrite Hb, Hp, <- map_app. now rewrite firstn_skipn.
  Qed.

  (** ** unaligned addresses *)
  Lemma shr_bit x n b : nbit (N.shiftr x (N.of_nat n)) b = nbit x (b + n).
  Proof. unfold nbit. rewrite N.shiftr_spec'. f_equal. lia. Qed.
  Lemma shl_bit x n b : nbit (N.shiftl x (N.of_nat n)) b = (n <=? b) && nbit x (b - n).
  Proof.
    unfold nbit. destruct (Nat.leb_spec n b).
    - rewrite N.shiftl_spec_high' by lia. cbn [andb]. f_equal. lia.
    - now rewrite N.shiftl_spec_low by lia.
  Qed.
  Lemma land_bit x y b : nbit (N.land x y) b = nbit x b && nbit y b. Proof. unfold nbit. now rewrite N.land_spec. Qed.
  Lemma lor_bit x y b : nbit (N.lor x y) b = nbit x b || nbit y b. Proof. unfold nbit. now rewrite N.lor_spec. Qed.
  Lemma onesb n b : nbit (N.ones (N.of_nat n)) b = (b <? n). Proof. apply ones_bit. Qed.

  Lemma read_unaligned_low d addr i v : 0 < cs -> read_unaligned cs d addr i = Some v -> forall b, b < 8 * (cs - addr mod cs) ->
    Some (nbit v b) = mem_bit d (addr / cs + i) (8 * (addr mod cs) + b).
  Proof.
    intros Hc H b Hb. unfold read_unaligned in H. unfold mem_bit.
    destruct (dict_get d (addr / cs + i)) as [[|d0|]|]; try discriminate.
    destruct (dict_get d (addr / cs + i + 1)) as [[|d1|]|]; try discriminate. injection H as <-. cbn [cell_bit]. f_equal.
    rewrite lor_bit, !land_bit, shr_bit, shl_bit, !onesb.
    pose proof (Nat.mod_upper_bound addr cs ltac:(lia)).
    replace (b + addr mod cs * 8) with (8 * (addr mod cs) + b) by lia.
    destruct (Nat.ltb_spec b (8 * cs)), (Nat.leb_spec ((cs - addr mod cs) * 8) b); lia.
  Qed.
  Lemma write_word_strobed d v strb k b : b < 8 * cs -> nbit strb (b / 8) = true ->
    mem_bit (write_word cs d (mk_hv v (N.ones (N.of_nat (8 * cs)))) strb k) k b = Some (nbit v b).
  Proof.
    intros Hb Hs. unfold write_word.
    destruct (N.eqb_spec strb 0) as [->|_]; [unfold nbit in Hs; now rewrite N.bits_0 in Hs|].
    assert (nbit (N.ones (N.of_nat (8 * cs))) b = true) as Ho by (rewrite onesb; now apply Nat.ltb_lt).
    destruct (negb _); [destruct (match dict_get d k with | Some (CVal v m) => (v, m) | Some (CInt v) => (v, allMask cs) | _ => (0%N, 0%N) end) as [cv cm]|];
      unfold mem_bit, dict_set; rewrite get_cons, Nat.eqb_refl; cbn [hv_val hv_vld].
    - destruct (N.eqb _ _); cbn [cell_bit]; rewrite !merge_bit, Hs by assumption; [reflexivity|]. now rewrite Ho.
    - cbn [cell_bit]. now rewrite Ho.
  Qed.
  Lemma write_unaligned_low d v strb addr i : 0 < cs -> forall j b, j < cs - addr mod cs -> b < 8 -> nbit strb j = true ->
    mem_bit (write_unaligned cs d v strb addr i) (addr / cs + i) (8 * (addr mod cs + j) + b) = Some (nbit v (8 * j + b)).
  Proof.
    intros Hc j b Hj Hb Hs. unfold write_unaligned. unfold mem_bit. rewrite write_word_other by lia. fold (mem_bit (write_word cs d
      (mk_hv (N.land (N.shiftl v (N.of_nat (addr mod cs * 8))) (N.ones (N.of_nat (8 * cs)))) (N.ones (N.of_nat (8 * cs))))
      (N.shiftl strb (N.of_nat (addr mod cs))) (addr / cs + i)) (addr / cs + i) (8 * (addr mod cs + j) + b)).
    pose proof (Nat.mod_upper_bound addr cs ltac:(lia)).
    rewrite write_word_strobed.
    - f_equal. rewrite land_bit, shl_bit, onesb.
      destruct (Nat.leb_spec (addr mod cs * 8) (8 * (addr mod cs + j) + b)), (Nat.ltb_spec (8 * (addr mod cs + j) + b) (8 * cs)); try lia.
      cbn [andb]. rewrite Bool.andb_true_r. f_equal. lia.
    - lia.
    - replace ((8 * (addr mod cs + j) + b) / 8) with (addr mod cs + j).
      + rewrite shl_bit. destruct (Nat.leb_spec (addr mod cs) (addr mod cs + j)); [|lia]. cbn [andb]. now replace (addr mod cs + j - addr mod cs) with j by lia.
      + apply Nat.div_unique with b; lia.
  Qed.
End Asr.
