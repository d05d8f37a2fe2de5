From Verif Require Import Base BaseFacts SimRamModel SimRamSpec.

Definition top (d : list (nat * cell)) : nat := match d with [] => 0 | _ => fold_right Nat.max 0 (map fst d) + 1 end.
Lemma max_ge (d : list (nat * cell)) e : In e d -> fst e <= fold_right Nat.max 0 (map fst d).
Proof. induction d as [|x d IH]; intros []; cbn [map fold_right]; [subst; lia|]. specialize (IH H). lia. Qed.
Lemma top_gt d e : In e d -> fst e < top d.
Proof. intros H. unfold top. pose proof (max_ge d e H). destruct d; [destruct H|]. lia. Qed.
Lemma get_top d k : top d <= k -> dict_get d k = None.
Proof.
  intros H. unfold dict_get. destruct (find _ d) as [e|] eqn:F; [|reflexivity]. apply find_some in F. destruct F as [F1 F2]. apply Nat.eqb_eq in F2.
  apply top_gt in F1. lia.
Qed.
Lemma top_cons k v d : top d <= k -> top ((k, v) :: d) = S k.
Proof. intros H. unfold top in *. destruct d as [|e d]; cbn [map fold_right fst] in *; [rewrite Nat.max_0_r; lia|]. lia. Qed.
Lemma get_cons k v d j : dict_get ((k, v) :: d) j = if k =? j then Some v else dict_get d j.
Proof. unfold dict_get. cbn [find fst]. destruct (k =? j); reflexivity. Qed.

Lemma reserve_ok : forall vals d indx, top d <= indx ->
  exists d', reserve d indx vals = Some d' /\ (forall k, dict_get d' k = if (indx <=? k) && (k <? indx + length vals) then nth_error vals (k - indx) else dict_get d k) /\
    (vals = [] -> d' = d) /\ (vals <> [] -> top d' = indx + length vals /\ d' <> []).
Proof.
  induction vals as [|v vals IH]; intros d indx H; cbn [reserve length].
  - exists d. split; [reflexivity|]. split; [|split; [reflexivity|congruence]]. intros k. destruct (Nat.leb_spec indx k), (Nat.ltb_spec k (indx + 0)); try reflexivity; lia.
  - rewrite get_top by exact H. destruct (IH ((indx, v) :: d) (S indx)) as (d' & E & G & N1 & N2); [rewrite top_cons by exact H; lia|].
    exists d'. split; [exact E|]. split; [|split; [discriminate|]].
    + intros k. rewrite G, get_cons. destruct (Nat.eqb_spec indx k) as [->|Hk].
      * destruct (Nat.leb_spec (S k) k); [lia|]. cbn [andb]. destruct (Nat.leb_spec k k); [|lia]. destruct (Nat.ltb_spec k (k + S (length vals))); [|lia]. cbn [andb]. rewrite Nat.sub_diag. reflexivity.
      * destruct (Nat.leb_spec (S indx) k), (Nat.leb_spec indx k); try lia; cbn [andb]; [|reflexivity].
        replace (S indx + length vals) with (indx + S (length vals)) by lia. destruct (k <? indx + S (length vals)) eqn:El; [|reflexivity].
        replace (k - indx) with (S (k - S indx)) by lia. reflexivity.
    + intros _. destruct vals as [|w vals].
      * rewrite N1 by reflexivity. rewrite top_cons by exact H. cbn [length]. split; [lia|discriminate].
      * destruct N2 as [T1 T2]; [discriminate|]. rewrite T1. cbn [length]. split; [lia|exact T2].
Qed.

Section P.
  Variable cs : nat.
  Hypothesis Hcs : 0 < cs.

  (** everything ever allocated is below [bound] *)
  Definition bound (s : sim_ram) : nat := match sr_data s with [] => sr_prev s | _ => top (sr_data s) * cs end.
  Lemma next_bound s k : next_addr cs s k = bound s + k.
  Proof. unfold next_addr, bound, top. destruct (sr_data s); reflexivity. Qed.
  Definition st_ok (s : sim_ram) : Prop := bound s mod cs = 0.
  Lemma top_le s a : bound s <= a -> top (sr_data s) <= a / cs.
  Proof.
    unfold bound. destruct (sr_data s) as [|e d]; [cbn [top]; intros _; apply Nat.le_0_l|]. intros H. apply Nat.div_le_lower_bound; [lia|]. rewrite Nat.mul_comm. exact H.
  Qed.

  Lemma div_up_ge n : n <= (n + cs - 1) / cs * cs.
  Proof. pose proof (Nat.div_mod (n + cs - 1) cs ltac:(lia)) as D. pose proof (Nat.mod_upper_bound (n + cs - 1) cs ltac:(lia)). nia. Qed.

  Lemma reserve_bound s indx vals d p : reserve (sr_data s) indx vals = Some d -> top (sr_data s) <= indx -> vals <> [] -> bound (mk_sr d p) = (indx + length vals) * cs.
  Proof.
    intros E H Hv. destruct (reserve_ok vals (sr_data s) indx H) as (d' & E' & _ & _ & N2). rewrite E in E'. injection E' as <-.
    destruct (N2 Hv) as [T1 T2]. unfold bound. cbn [sr_data sr_prev]. destruct d; [congruence|]. rewrite T1. reflexivity.
  Qed.

  Lemma alloc_step s o : st_ok s -> whole_cells cs o -> forall s' r, do_alloc cs s o = Some (s', r) ->
    bound s <= fst r /\ st_ok s' /\ bound s <= bound s' /\ fst r + snd r <= bound s' \/ (snd r = 0 /\ bound s <= fst r /\ st_ok s' /\ bound s <= bound s').
  Proof.
    intros Hs Hw s' r H. destruct o as [size k|num size k i]; cbn [do_alloc whole_cells] in *.
    - destruct Hw as (W1 & W2 & W3). unfold malloc in H. rewrite next_bound in H.
      set (a := bound s + k) in *. assert (top (sr_data s) <= a / cs) as Ht by (apply top_le; unfold a; lia).
      assert (a mod cs = 0) as Ha. { unfold a. rewrite Nat.add_mod, Hs, W2 by lia. apply Nat.mod_0_l. lia. }
      destruct (reserve (sr_data s) (a / cs) (repeat CNone (size / cs))) as [d|] eqn:E; [|discriminate]. injection H as <- <-.
      pose proof (Nat.div_mod size cs ltac:(lia)) as D1. rewrite W1 in D1. pose proof (Nat.div_mod a cs ltac:(lia)) as D2. rewrite Ha in D2.
      assert (0 < size / cs) as Hn by (destruct (size / cs); lia).
      pose proof (reserve_bound s (a / cs) _ d a E Ht) as B. rewrite repeat_length in B. 
      assert (bound (mk_sr d a) = (a / cs + size / cs) * cs) as B' by (apply B; destruct (size / cs); [lia|discriminate]).
      assert ((a / cs + size / cs) * cs = a + size) as B2 by (rewrite Nat.mul_add_distr_r; lia).
      left. cbn [fst snd]. unfold st_ok. rewrite B'. split; [unfold a; lia|]. split; [apply Nat.mod_mul; lia|]. rewrite B2. unfold a in *. lia.
    - unfold calloc in H. rewrite next_bound in H. set (a := bound s + k) in *. assert (top (sr_data s) <= a / cs) as Ht by (apply top_le; unfold a; lia).
      assert (a mod cs = 0) as Ha. { unfold a. rewrite Nat.add_mod, Hs, Hw by lia. apply Nat.mod_0_l. lia. }
      cbv zeta in H. rewrite Ha in H. rewrite Nat.eqb_refl in H. pose proof (Nat.div_mod a cs ltac:(lia)) as D2. rewrite Ha in D2.
      set (wc := (num * size + cs - 1) / cs) in *. pose proof (div_up_ge (num * size)) as Hup. fold wc in Hup.
      match type of H with match (match ?v with _ => _ end) with _ => _ end = _ => destruct v as [vals|] eqn:EV; [|discriminate] end.
      destruct (reserve (sr_data s) (a / cs) vals) as [d|] eqn:E; [|discriminate]. injection H as <- <-.
      assert (length vals = wc) as Hl.
      { destruct i as [vs|]; [|injection EV as <-; apply repeat_length].
        destruct (if size =? cs then _ else _) as [l|]; [|discriminate]. destruct (Nat.eqb_spec (length l) wc) as [El|]; [|discriminate]. injection EV as <-. rewrite map_length. exact El. }
      destruct vals as [|v vals].
      + right. cbn [length] in Hl. rewrite <- Hl in *. cbn [fst snd]. split; [lia|]. split; [unfold a; lia|]. cbn [reserve] in E. injection E as <-.
        unfold st_ok, bound in *. cbn [sr_data sr_prev]. rewrite Nat.add_0_r. destruct (sr_data s); [|split; [exact Hs|lia]]. split; [apply Nat.mod_mul; lia|]. unfold a in *. lia.
      + left. pose proof (reserve_bound s (a / cs) (v :: vals) d ((a / cs + wc) * cs) E Ht ltac:(discriminate)) as B. rewrite Hl in B.
        assert ((a / cs + wc) * cs = a + wc * cs) as B2 by (rewrite Nat.mul_add_distr_r; lia).
        cbn [fst snd]. unfold st_ok. rewrite B. split; [unfold a; lia|]. split; [apply Nat.mod_mul; lia|]. rewrite B2. unfold a in *. lia.
  Qed.

  Lemma allocs_run : forall os s, st_ok s -> Forall (whole_cells cs) os -> forall s' rs, do_allocs cs s os = Some (s', rs) ->
    no_overlap rs /\ forall r x, In r rs -> in_reg r x -> bound s <= x.
  Proof.
    induction os as [|o os IH]; intros s Hs Hw s' rs H; cbn [do_allocs] in H.
    - injection H as <- <-. split; [intros i j r q x Hi; destruct i; discriminate|intros r x []].
    - inversion Hw as [|? ? Hw1 Hw2]; subst. destruct (do_alloc cs s o) as [[s1 r]|] eqn:E1; [|discriminate].
      destruct (do_allocs cs s1 os) as [[s2 rs']|] eqn:E2; [|discriminate]. injection H as <- <-.
      pose proof (alloc_step s o Hs Hw1 s1 r E1) as A.
      assert (st_ok s1 /\ bound s <= bound s1 /\ bound s <= fst r /\ forall x, in_reg r x -> x < bound s1) as (A1 & A2 & A3 & A4).
      { unfold in_reg. destruct A as [(X1 & X2 & X3 & X4)|(X1 & X2 & X3 & X4)]; repeat split; auto; intros; lia. }
      destruct (IH s1 A1 Hw2 _ _ E2) as [I1 I2]. split.
      + intros i j q q' x Hi Hj Hx Hx'. destruct i as [|i], j as [|j]; cbn [nth_error] in *.
        * reflexivity.
        * injection Hi as <-. apply nth_error_In in Hj. specialize (I2 q' x Hj Hx'). specialize (A4 x Hx). lia.
        * injection Hj as <-. apply nth_error_In in Hi. specialize (I2 q x Hi Hx). specialize (A4 x Hx'). lia.
        * f_equal. eapply I1; eassumption.
      + intros q x [<-|Hq] Hx; [unfold in_reg in Hx; lia|]. specialize (I2 q x Hq Hx). lia.
  Qed.

  (** allocations never fail for want of space *)
  Lemma malloc_ok s size k : exists r, malloc cs s size k = Some r.
  Proof.
    unfold malloc. rewrite next_bound. destruct (reserve_ok (repeat CNone (size / cs)) (sr_data s) ((bound s + k) / cs)) as (d & E & _); [apply top_le; lia|].
    rewrite E. eexists. reflexivity.
  Qed.
  Lemma calloc_ok s num size k : (bound s + k) mod cs = 0 -> exists r, calloc cs s num size k None = Some r.
  Proof.
    intros Ha. unfold calloc. rewrite next_bound. cbv zeta. rewrite Ha, Nat.eqb_refl.
    match goal with |- context [reserve ?d ?i ?v] => destruct (reserve_ok v d i) as (d' & E & _); [apply top_le; lia|] end.
    rewrite E. eexists. reflexivity.
  Qed.

  (** allocations do not change existing cells *)
  Lemma alloc_keeps s o s' r k c : do_alloc cs s o = Some (s', r) -> dict_get (sr_data s) k = Some c -> dict_get (sr_data s') k = Some c.
  Proof.
    intros H Hk. assert (k < top (sr_data s)) as Hlt. { destruct (le_lt_dec (top (sr_data s)) k) as [L|L]; [rewrite get_top in Hk by exact L; discriminate|exact L]. }
    assert (forall vals i d, top (sr_data s) <= i -> reserve (sr_data s) i vals = Some d -> dict_get d k = Some c) as K.
    { intros vals i d Hi E. destruct (reserve_ok vals (sr_data s) i Hi) as (d' & E' & G & _). rewrite E in E'. injection E' as <-. rewrite G.
      destruct (Nat.leb_spec i k); [lia|]. exact Hk. }
    destruct o as [size kk|num size kk i]; cbn [do_alloc] in H.
    - unfold malloc in H. rewrite next_bound in H. destruct (reserve _ _ _) as [d|] eqn:E; [|discriminate]. injection H as <- <-. eapply K; [|exact E]. apply top_le. lia.
    - unfold calloc in H. rewrite next_bound in H. cbv zeta in H.
      destruct ((bound s + kk) mod cs =? 0); [|discriminate].
      match type of H with match (match ?v with _ => _ end) with _ => _ end = _ => destruct v as [vals|] eqn:EV; [|discriminate] end.
      destruct (reserve _ _ _) as [d|] eqn:E; [|discriminate]. injection H as <- <-. eapply K; [|exact E]. apply top_le. lia.
  Qed.
  Lemma allocs_keep : forall os s s' rs k c, do_allocs cs s os = Some (s', rs) -> dict_get (sr_data s) k = Some c -> dict_get (sr_data s') k = Some c.
  Proof.
    induction os as [|o os IH]; intros s s' rs k c H Hk; cbn [do_allocs] in H; [injection H as <- <-; exact Hk|].
    destruct (do_alloc cs s o) as [[s1 r]|] eqn:E1; [|discriminate]. destruct (do_allocs cs s1 os) as [[s2 rs']|] eqn:E2; [|discriminate].
    injection H as <- <-. eapply IH; [exact E2|]. eapply alloc_keeps; eassumption.
  Qed.

  (** ** getBits *)
  Lemma gbr_bit v o w i : N.testbit (get_bit_range v o w) (N.of_nat i) = N.testbit v (N.of_nat (o + i)) && (i <? w).
  Proof.
    unfold get_bit_range. rewrite N.land_spec, N.shiftr_spec by lia. replace (N.of_nat i + N.of_nat o)%N with (N.of_nat (o + i)) by lia. f_equal.
    destruct (Nat.ltb_spec i w); [apply N.ones_spec_low; lia|apply N.ones_spec_high; lia].
  Qed.
  Lemma ones_bit w i : N.testbit (N.ones (N.of_nat w)) (N.of_nat i) = (i <? w).
  Proof. destruct (Nat.ltb_spec i w); [apply N.ones_spec_low; lia|apply N.ones_spec_high; lia]. Qed.

  Lemma chunk_bit val x w f i : N.testbit (N.lor val (N.shiftl (N.land x (N.ones (N.of_nat w))) (N.of_nat f))) (N.of_nat i) =
    N.testbit val (N.of_nat i) || (f <=? i) && (i <? f + w) && N.testbit x (N.of_nat (i - f)).
  Proof.
    rewrite N.lor_spec. f_equal. destruct (Nat.leb_spec f i) as [H|H].
    - replace (N.of_nat i) with (N.of_nat (i - f) + N.of_nat f)%N by lia. rewrite N.shiftl_spec_high' by lia.
      replace (N.of_nat (i - f) + N.of_nat f - N.of_nat f)%N with (N.of_nat (i - f)) by lia. rewrite N.land_spec, ones_bit. cbn [andb].
      replace (i - f <? w) with (i <? f + w); [apply andb_comm|]. destruct (Nat.ltb_spec i (f + w)), (Nat.ltb_spec (i - f) w); try reflexivity; lia.
    - rewrite N.shiftl_spec_low by lia. reflexivity.
  Qed.

  Lemma get_bits_loop_spec : forall fuel d start end_ f val vld, start <= end_ -> end_ - start <= fuel ->
    (forall i, f <= i -> N.testbit val (N.of_nat i) = false) -> (forall i, f <= i -> N.testbit vld (N.of_nat i) = false) ->
    forall p i, let r := get_bits_loop cs fuel d start end_ f val vld in
    N.testbit (fst r) (N.of_nat i) = (if i <? f then N.testbit val (N.of_nat i) else (i <? f + (end_ - start)) && fst (mem_bit cs (mk_sr d p) (start + (i - f)))) /\
    N.testbit (snd r) (N.of_nat i) = (if i <? f then N.testbit vld (N.of_nat i) else (i <? f + (end_ - start)) && snd (mem_bit cs (mk_sr d p) (start + (i - f)))).
  Proof.
    induction fuel as [|fuel IH]; intros d start end_ f val vld Hle Hf Hv Hm p i r; unfold r; clear r; cbn [get_bits_loop].
    - assert (end_ - start = 0) as -> by lia. rewrite Nat.add_0_r. cbn [fst snd]. destruct (Nat.ltb_spec i f); [auto|]. cbn [andb]. split; [apply Hv|apply Hm]; lia.
    - destruct (Nat.eqb_spec start end_) as [->|Hne].
      { rewrite Nat.sub_diag, Nat.add_0_r. cbn [fst snd]. destruct (Nat.ltb_spec i f); [auto|]. cbn [andb]. split; [apply Hv|apply Hm]; lia. }
      set (W := cs * 8) in *. assert (0 < W) as HW by (unfold W; lia).
      set (q := start / W) in *. pose proof (Nat.div_mod start W ltac:(lia)) as D. fold q in D. pose proof (Nat.mod_upper_bound start W ltac:(lia)) as U.
      set (o := start mod W) in *. set (w := Nat.min end_ ((q + 1) * W) - start).
      assert ((q + 1) * W = start + (W - o)) as Eend by (rewrite Nat.mul_add_distr_r; lia).
      assert (0 < w /\ w <= end_ - start /\ w <= W - o) as (Hw0 & Hw1 & Hw2) by (unfold w; rewrite Eend; lia).
      (* bits of this word *)
      assert (forall j, j < w -> mem_bit cs (mk_sr d p) (start + j) = match dict_get d q with
         | None | Some CNone => (false, false)
         | Some (CInt v) => (N.testbit v (N.of_nat (o + j)), true)
         | Some (CVal v m) => (N.testbit v (N.of_nat (o + j)), N.testbit m (N.of_nat (o + j))) end) as MB.
      { intros j Hj. unfold mem_bit. cbn [sr_data]. fold W.
        assert ((start + j) / W = q) as ->. { symmetry. apply (Nat.div_unique _ _ q (o + j)); lia. }
        assert ((start + j) mod W = o + j) as ->. { symmetry. apply (Nat.mod_unique _ _ q (o + j)); lia. }
        reflexivity. }
      match goal with |- context [let '(v, m) := ?e in _] => set (vm := e) end.
      assert (forall j, j < w -> N.testbit (fst vm) (N.of_nat j) = fst (mem_bit cs (mk_sr d p) (start + j)) /\
                                 N.testbit (snd vm) (N.of_nat j) = snd (mem_bit cs (mk_sr d p) (start + j))) as VM.
      { intros j Hj. rewrite MB by exact Hj. unfold vm. destruct (dict_get d q) as [[|v|v m]|]; cbn [fst snd].
        - rewrite N.bits_0. auto.
        - rewrite gbr_bit, ones_bit. fold w. destruct (Nat.ltb_spec j w); [|lia]. destruct (Nat.ltb_spec j W); [|lia]. rewrite andb_true_r. auto.
        - rewrite !gbr_bit. fold w. destruct (Nat.ltb_spec j w); [|lia]. rewrite !andb_true_r. auto.
        - rewrite N.bits_0. auto. }
      clearbody vm. destruct vm as [v m]. cbn [fst snd] in VM. fold w.
      set (val' := N.lor val _). set (vld' := N.lor vld _).
      assert (forall i, f + w <= i -> N.testbit val' (N.of_nat i) = false) as Hv'.
      { intros j Hj. unfold val'. rewrite chunk_bit, Hv by lia. destruct (Nat.ltb_spec j (f + w)); [lia|]. rewrite andb_false_r. reflexivity. }
      assert (forall i, f + w <= i -> N.testbit vld' (N.of_nat i) = false) as Hm'.
      { intros j Hj. unfold vld'. rewrite chunk_bit, Hm by lia. destruct (Nat.ltb_spec j (f + w)); [lia|]. rewrite andb_false_r. reflexivity. }
      destruct (IH d (start + w) end_ (f + w) val' vld' ltac:(lia) ltac:(lia) Hv' Hm' p i) as [I1 I2]. rewrite I1, I2. clear I1 I2 IH.
      replace (f + w + (end_ - (start + w))) with (f + (end_ - start)) by lia.
      destruct (Nat.ltb_spec i f) as [L|L].
      + destruct (Nat.ltb_spec i (f + w)); [|lia]. unfold val', vld'. rewrite !chunk_bit. destruct (Nat.leb_spec f i); [lia|]. cbn [andb]. rewrite !orb_false_r. auto.
      + destruct (Nat.ltb_spec i (f + w)) as [L2|L2].
        * unfold val', vld'. rewrite !chunk_bit, Hv, Hm by lia. destruct (Nat.leb_spec f i); [|lia]. destruct (Nat.ltb_spec i (f + w)); [|lia]. cbn [andb orb].
          destruct (Nat.ltb_spec i (f + (end_ - start))); [|lia]. cbn [andb]. apply VM. lia.
        * replace (start + w + (i - (f + w))) with (start + (i - f)) by lia. auto.
  Qed.

  Lemma get_bits_spec s start end_ i : start <= end_ ->
    N.testbit (fst (get_bits cs s start end_)) (N.of_nat i) = (i <? end_ - start) && fst (mem_bit cs s (start + i)) /\
    N.testbit (snd (get_bits cs s start end_)) (N.of_nat i) = (i <? end_ - start) && snd (mem_bit cs s (start + i)).
  Proof.
    intros H. destruct s as [d p].
    pose proof (get_bits_loop_spec (end_ - start) d start end_ 0 0 0 H ltac:(lia) (fun i _ => N.bits_0 _) (fun i _ => N.bits_0 _) p i) as G.
    cbv zeta in G. cbn [Nat.ltb Nat.leb] in G. rewrite Nat.sub_0_r in G. exact G.
  Qed.
End P.

(** ** calloc and getArray *)
Lemma ilti_bit : forall l w i, 0 < w -> (forall v, In v l -> (v < 2 ^ N.of_nat w)%N) ->
  N.testbit (int_list_to_int l w) (N.of_nat i) = N.testbit (nth (i / w) l 0%N) (N.of_nat (i mod w)).
Proof.
  induction l as [|v l IH]; intros w i Hw Hl; cbn [int_list_to_int].
  - rewrite N.bits_0. destruct (i / w); cbn [nth]; rewrite N.bits_0; reflexivity.
  - rewrite N.lor_spec. destruct (le_lt_dec w i) as [H|H].
    + replace (N.of_nat i) with (N.of_nat (i - w) + N.of_nat w)%N by lia. rewrite N.shiftl_spec_high' by lia.
      replace (N.of_nat (i - w) + N.of_nat w - N.of_nat w)%N with (N.of_nat (i - w)) by lia.
      rewrite IH by (auto; intros; apply Hl; right; assumption).
      assert (N.testbit v (N.of_nat (i - w) + N.of_nat w) = false) as ->.
      { destruct (N.eq_dec v 0) as [->|Hv]; [apply N.bits_0|]. apply N.bits_above_log2. specialize (Hl v (or_introl eq_refl)).
        assert (N.log2 v < N.of_nat w)%N; [apply N.log2_lt_pow2; lia|lia]. }
      cbn [orb]. replace i with (i - w + 1 * w) at 3 4 by lia. rewrite Nat.div_add, Nat.mod_add by lia. replace ((i - w) / w + 1) with (S ((i - w) / w)) by lia. reflexivity.
    + rewrite N.shiftl_spec_low by lia. rewrite orb_false_r, Nat.div_small, Nat.mod_small by exact H. reflexivity.
Qed.

Lemma skipn_skipn_add {B} : forall a b (l : list B), skipn a (skipn b l) = skipn (a + b) l.
Proof.
  intros a b. revert a. induction b as [|b IH]; intros a l; [rewrite Nat.add_0_r; reflexivity|]. rewrite Nat.add_succ_r.
  destruct l as [|x l]; [rewrite !skipn_nil; reflexivity|]. cbn [skipn]. apply IH.
Qed.
Lemma reshaped_nth : forall fuel n w l k, 0 < n -> length l <= fuel ->
  nth_error (reshaped fuel n w l) k = if k * n <? length l then Some (int_list_to_int (firstn n (skipn (k * n) l ++ repeat 0%N n)) w) else None.
Proof.
  induction fuel as [|fuel IH]; intros n w l k Hn Hl.
  - destruct l; [|cbn in Hl; lia]. cbn. destruct k; reflexivity.
  - destruct l as [|v l]; [cbn; destruct (k * n); destruct k; reflexivity|].
    cbn [reshaped]. destruct k as [|k]; [cbn [nth_error Nat.mul skipn length]; reflexivity|]. cbn [nth_error].
    rewrite IH; [|exact Hn|rewrite skipn_length; cbn [length] in *; lia].
    rewrite skipn_length, skipn_skipn_add. replace (k * n + n) with (S k * n) by lia.
    destruct (Nat.ltb_spec (k * n) (length (v :: l) - n)), (Nat.ltb_spec (S k * n) (length (v :: l))); try reflexivity; lia.
Qed.

Lemma bits_ext x y w : (x < 2 ^ N.of_nat w)%N -> (y < 2 ^ N.of_nat w)%N -> (forall i, i < w -> N.testbit x (N.of_nat i) = N.testbit y (N.of_nat i)) -> x = y.
Proof.
  intros Hx Hy H. apply N.bits_inj. intros i. destruct (N.lt_ge_cases i (N.of_nat w)) as [L|L].
  - specialize (H (N.to_nat i) ltac:(lia)). rewrite N2Nat.id in H. exact H.
  - assert (forall z, (z < 2 ^ N.of_nat w)%N -> N.testbit z i = false) as K.
    { intros z Hz. destruct (N.eq_dec z 0) as [->|Hz0]; [apply N.bits_0|]. apply N.bits_above_log2. assert (N.log2 z < N.of_nat w)%N; [apply N.log2_lt_pow2; lia|lia]. }
    rewrite !K by assumption. reflexivity.
Qed.
Lemma bits_bound x w : (forall i, w <= i -> N.testbit x (N.of_nat i) = false) -> (x < 2 ^ N.of_nat w)%N.
Proof.
  intros H. destruct (N.eq_dec x 0) as [->|Hx]; [apply N.neq_0_lt_0, N.pow_nonzero; lia|].
  apply N.log2_lt_pow2; [lia|]. destruct (N.lt_ge_cases (N.log2 x) (N.of_nat w)) as [L|L]; [exact L|].
  specialize (H (N.to_nat (N.log2 x)) ltac:(lia)). rewrite N2Nat.id, N.bit_log2 in H by exact Hx. discriminate.
Qed.

Lemma nth_error_ext_len {B} (l m : list B) : length l = length m -> (forall i, nth_error l i = nth_error m i) -> l = m.
Proof.
  revert m. induction l as [|x l IH]; intros [|y m] H E; cbn in H; try lia; [reflexivity|]. pose proof (E 0) as E0. cbn in E0. injection E0 as ->. f_equal.
  apply IH; [lia|]. intros i. apply (E (S i)).
Qed.
Lemma iff_lt_eq x y : (forall k, k < x <-> k < y) -> x = y.
Proof. intros H. destruct (lt_eq_lt_dec x y) as [[L|E]|L]; [specialize (H x)|exact E|specialize (H y)]; lia. Qed.
Lemma reshaped_length n w l size : 0 < n -> 0 < size -> length (reshaped (length l) n w l) = (length l * size + n * size - 1) / (n * size).
Proof.
  intros Hn Hs. apply iff_lt_eq. intros k. rewrite <- nth_error_Some, reshaped_nth by lia.
  assert (k * n < length l <-> k < (length l * size + n * size - 1) / (n * size)) as K.
  { set (c := n * size). assert (0 < c) as Hc by (unfold c; nia). rewrite (Nat.lt_nge k), (Nat.lt_nge (k * n)).
    split; intros H G; apply H; clear H.
    - apply Nat.lt_succ_r in G. destruct (le_lt_dec (length l) (k * n)) as [L|L]; [exact L|exfalso].
      assert (S k <= (length l * size + c - 1) / c) as K; [|lia]. apply Nat.div_le_lower_bound; [lia|].
      assert (k * n + 1 <= length l) as L' by lia. apply (Nat.mul_le_mono_r _ _ size) in L'. unfold c. nia.
    - assert ((length l * size + c - 1) / c < S k) as K; [|lia]. apply Nat.div_lt_upper_bound; [lia|].
      apply (Nat.mul_le_mono_r _ _ size) in G. unfold c in *. nia. }
  destruct (Nat.ltb_spec (k * n) (length l)); split; intros G; try congruence; try (apply K; assumption); apply K in G; lia.
Qed.

Section Calloc.
  Variable cs : nat.
  Hypothesis Hcs : 0 < cs.
  Variables (size n : nat).
  Hypothesis Hsize : 0 < size.
  Hypothesis Hn : cs = n * size.
  Lemma n_pos : 0 < n. Proof. destruct n; lia. Qed.
  Lemma cs_mod : cs mod size = 0. Proof. rewrite Hn. apply Nat.mod_mul. lia. Qed.
  Lemma cs_div : cs / size = n. Proof. rewrite Hn. apply Nat.div_mul. lia. Qed.

  (** the cells calloc writes *)
  Lemma calloc_result s k vs : st_ok cs s -> k mod cs = 0 ->
    exists s1, calloc cs s (length vs) size k (Some vs) = Some (s1, bound cs s + k) /\      forall c, nth_error (if size =? cs then vs else reshaped (length vs) n (size * 8) vs) c <> None ->
        dict_get (sr_data s1) ((bound cs s + k) / cs + c) = option_map CInt (nth_error (if size =? cs then vs else reshaped (length vs) n (size * 8) vs) c).
  Proof.
    intros Hs Hk. unfold calloc. cbv zeta. rewrite next_bound.
    assert ((bound cs s + k) mod cs = 0) as Ha. { rewrite Nat.add_mod, Hs, Hk by lia. apply Nat.mod_0_l. lia. }
    rewrite Ha, Nat.eqb_refl. set (cells := if size =? cs then vs else _).
    assert ((if size =? cs then Some vs else if (size <? cs) && (cs mod size =? 0) then Some (reshaped (length vs) (cs / size) (size * 8) vs) else None) = Some cells) as ->.
    { unfold cells. destruct (Nat.eqb_spec size cs); [reflexivity|]. rewrite cs_mod, cs_div, Nat.eqb_refl, andb_true_r.
      destruct (Nat.ltb_spec size cs) as [|L]; [reflexivity|]. pose proof n_pos. nia. }
    assert (length cells = (length vs * size + cs - 1) / cs) as Hl.
    { unfold cells. destruct (Nat.eqb_spec size cs) as [E|E].
      - apply (Nat.div_unique _ _ (length vs) (cs - 1)); [lia|]. rewrite E. lia.
      - rewrite (reshaped_length n (size * 8) vs size n_pos Hsize). rewrite Hn. reflexivity. }
    rewrite <- Hl, Nat.eqb_refl.
    destruct (reserve_ok (map CInt cells) (sr_data s) ((bound cs s + k) / cs)) as (d & E & G & _); [apply top_le; lia|].
    rewrite E. eexists. split; [reflexivity|]. intros c Hc. cbn [sr_data]. rewrite G, map_length. apply nth_error_Some in Hc.
    destruct (Nat.leb_spec ((bound cs s + k) / cs) ((bound cs s + k) / cs + c)); [|lia].
    destruct (Nat.ltb_spec ((bound cs s + k) / cs + c) ((bound cs s + k) / cs + length cells)); [|lia]. cbn [andb].
    replace ((bound cs s + k) / cs + c - (bound cs s + k) / cs) with c by lia. apply nth_error_map.
  Qed.

  Lemma nth_error_nth_d {B} (l : list B) i d : i < length l -> nth_error l i = Some (nth i l d).
  Proof. intros H. apply nth_error_nth'. exact H. Qed.
  Lemma nth_firstn_app (l : list N) b m : m < n -> nth m (firstn n (skipn b l ++ repeat 0%N n)) 0%N = nth (b + m) l 0%N.
  Proof.
    intros H. assert (forall (q : list N) i, i < n -> nth i (firstn n q) 0%N = nth i q 0%N) as F.
    { clear. intros q i. revert n q. induction i as [|i IH]; intros n q H; destruct n; try lia; destruct q; cbn; try reflexivity. apply IH. lia. }
    rewrite F by exact H. destruct (le_lt_dec (length l) (b + m)) as [L|L].
    - rewrite (nth_overflow l) by exact L. rewrite app_nth2; rewrite skipn_length; [|lia].
      rewrite nth_repeat. reflexivity.
    - rewrite app_nth1 by (rewrite skipn_length; lia). clear F. revert l m H L. induction b as [|b IH]; intros l m H L; [reflexivity|].
      destruct l; cbn [length] in L; [lia|]. cbn [skipn Nat.add nth]. apply IH; lia.
  Qed.

  Lemma calloc_read s k vs : st_ok cs s -> k mod cs = 0 -> Forall (fun v => (v < 2 ^ N.of_nat (size * 8))%N) vs ->
    exists s1, calloc cs s (length vs) size k (Some vs) = Some (s1, bound cs s + k) /\    forall os s2 rs, do_allocs cs s1 os = Some (s2, rs) ->
      get_array cs s2 (bound cs s + k) size (length vs) = map (fun v => (v, N.ones (N.of_nat (size * 8)))) vs.
  Proof.
    intros Hs Hk Hv. destruct (calloc_result s k vs Hs Hk) as (s1 & E & G). exists s1. split; [exact E|]. intros os s2 rs Ho.
    set (a := bound cs s + k) in *.
    assert (a mod cs = 0) as Ha. { unfold a. rewrite Nat.add_mod, Hs, Hk by lia. apply Nat.mod_0_l. lia. }
    pose proof (Nat.div_mod a cs ltac:(lia)) as Da. rewrite Ha in Da. clear Ha. set (qa := a / cs) in *. clearbody qa. clearbody a. pose proof n_pos as Hn0. set (w := size * 8) in *.
    assert (0 < w) as Hw by (unfold w; lia). assert (cs * 8 = n * w) as Ew by (unfold w; rewrite Hn; lia). assert (size = cs -> n = 1) as Hn1 by (clear - Hn Hsize; nia). assert (size * 8 = w) as Ewd by reflexivity. clearbody w.
    rewrite Forall_forall in Hv.
    (* every memory bit of item i *)
    assert (forall i j, i < length vs -> j < w -> mem_bit cs s2 (a * 8 + i * w + j) = (N.testbit (nth i vs 0%N) (N.of_nat j), true)) as MB.
    { intros i j Hi Hj. unfold mem_bit. pose proof (Nat.div_mod i n ltac:(lia)) as Di. pose proof (Nat.mod_upper_bound i n ltac:(lia)) as Ui.
      set (q := i / n) in *. set (r := i mod n) in *. clearbody q r.
      assert (a * 8 + i * w + j = (cs * 8) * (qa + q) + (r * w + j)) as Ep.
      { rewrite Nat.mul_add_distr_l. replace (cs * 8 * qa) with (a * 8) by (clear - Da; lia). rewrite Ew. rewrite Di at 1. ring. }
      assert (r * w + j < cs * 8) as Hb by (rewrite Ew; clear - Ui Hj; nia).
      rewrite Ep. rewrite <- (Nat.div_unique _ (cs * 8) (qa + q) (r * w + j) Hb eq_refl).
      rewrite <- (Nat.mod_unique _ (cs * 8) (qa + q) (r * w + j) Hb eq_refl).
      assert (q * n <= i) as Hq by (clear - Di; lia).
      specialize (G q). destruct (Nat.eqb_spec size cs) as [Es|Es].
      - pose proof (Hn1 Es) as En. assert (r = 0) as Er by (clear - En Ui; lia). assert (q = i) as Eq by (rewrite En, Er in Di; clear - Di; lia).
        rewrite (nth_error_nth_d vs q 0%N) in G by lia. specialize (G ltac:(discriminate)). cbn [option_map] in G.
        rewrite (allocs_keep cs Hcs os s1 s2 rs _ _ Ho G). rewrite Er, Eq. cbn [Nat.mul Nat.add]. reflexivity.
      - rewrite reshaped_nth in G by lia. destruct (Nat.ltb_spec (q * n) (length vs)) as [L|L]; [|lia]. specialize (G ltac:(discriminate)). cbn [option_map] in G.
        rewrite (allocs_keep cs Hcs os s1 s2 rs _ _ Ho G). f_equal. rewrite ilti_bit.
        + replace ((r * w + j) / w) with r by (apply (Nat.div_unique _ w r j Hj); clear; lia). replace ((r * w + j) mod w) with j by (apply (Nat.mod_unique _ w r j Hj); clear; lia).
          rewrite nth_firstn_app by exact Ui. replace (q * n + r) with i by (clear - Di; lia). reflexivity.
        + lia.
        + intros v Hin. clear - Hin Hv. assert (In v vs \/ v = 0%N) as [K| ->]; [|apply Hv; exact K|apply N.neq_0_lt_0, N.pow_nonzero; lia].
          assert (forall (l : list N) m, In v (firstn m l) -> In v l) as F1. { intros l m H. rewrite <- (firstn_skipn m l). apply in_or_app. left. exact H. }
          apply F1 in Hin. apply in_app_or in Hin. destruct Hin as [Hin|Hin]; [left|right; apply repeat_spec in Hin; exact Hin].
          rewrite <- (firstn_skipn (q * n) vs). apply in_or_app. right. exact Hin. }
    unfold get_array. rewrite Ewd. apply nth_error_ext_len.
    - rewrite !map_length, seq_length. reflexivity.
    - intros i. rewrite !nth_error_map. destruct (le_lt_dec (length vs) i) as [L|L].
      + rewrite (proj2 (nth_error_None vs i) L), (proj2 (nth_error_None (seq 0 (length vs)) i)) by (rewrite seq_length; exact L). reflexivity.
      + rewrite (nth_error_nth_d vs i 0%N L). rewrite (nth_error_nth_d (seq 0 (length vs)) i 0) by (rewrite seq_length; exact L). rewrite seq_nth by exact L.
        cbn [option_map Nat.add]. f_equal.
        pose proof (fun b => get_bits_spec cs Hcs s2 (a * 8 + i * w) (a * 8 + i * w + w) b ltac:(lia)) as B.
        replace (a * 8 + i * w + w - (a * 8 + i * w)) with w in B by lia.
        destruct (get_bits cs s2 (a * 8 + i * w) (a * 8 + i * w + w)) as [v m]. cbn [fst snd] in B.
        assert (forall b, w <= b -> N.testbit v (N.of_nat b) = false /\ N.testbit m (N.of_nat b) = false) as Hi.
        { intros b Hb. destruct (B b) as [B1 B2]. rewrite B1, B2. destruct (Nat.ltb_spec b w); [lia|]. auto. }
        f_equal.
        * apply (bits_ext _ _ w); [apply bits_bound; intros b Hb; apply Hi, Hb|apply Hv, nth_In, L|]. intros b Hb. destruct (B b) as [B1 _]. rewrite B1, MB by assumption.
          destruct (Nat.ltb_spec b w); [reflexivity|lia].
        * apply (bits_ext _ _ w); [apply bits_bound; intros b Hb; apply Hi, Hb|rewrite N.ones_equiv; apply N.lt_pred_l, N.pow_nonzero; lia|].
          intros b Hb. destruct (B b) as [_ B2]. rewrite B2, MB, (ones_bit cs Hcs) by assumption. destruct (Nat.ltb_spec b w); [reflexivity|lia].
  Qed.
End Calloc.

(** concrete allocations: cells of 4 bytes *)
Definition ex_ops : list alloc_op := [OMalloc 8 0; OCalloc 3 2 4 (Some [0x1111; 0x2222; 0x3333]%N); OCalloc 5 1 0 None].
Lemma ex_ops_ok : 0 < 4 /\ Forall (whole_cells 4) ex_ops /\ option_map snd (do_allocs 4 sr_init ex_ops) = Some [(0, 8); (12, 6); (20, 5)].
Proof. split; [lia|]. split; [repeat constructor|vm_compute; reflexivity]. Qed.
Lemma st_ok_init cs : 0 < cs -> st_ok cs sr_init.
Proof. intros H. unfold st_ok, bound. cbn. apply Nat.mod_0_l. lia. Qed.

(** allocations keep the alignment *)
Lemma allocs_st_ok cs : 0 < cs -> forall os s s' rs, st_ok cs s -> Forall (whole_cells cs) os -> do_allocs cs s os = Some (s', rs) -> st_ok cs s'.
Proof.
  intros Hcs. induction os as [|o os IH]; intros s s' rs Hs Hw H; cbn [do_allocs] in H; [injection H as <- <-; exact Hs|].
  inversion Hw as [|? ? W1 W2]; subst. destruct (do_alloc cs s o) as [[s1 r]|] eqn:E1; [|discriminate].
  destruct (do_allocs cs s1 os) as [[s2 rs']|] eqn:E2; [|discriminate]. injection H as <- <-.
  apply (IH s1 s2 rs'); [|exact W2|exact E2]. destruct (alloc_step cs Hcs s o Hs W1 s1 r E1) as [(_ & X & _)|(_ & _ & X & _)]; exact X.
Qed.
Lemma sim_ram_alloc cs os s rs : 0 < cs -> Forall (whole_cells cs) os -> do_allocs cs sr_init os = Some (s, rs) -> no_overlap rs.
Proof. intros Hcs Hw H. apply (allocs_run cs Hcs os sr_init (st_ok_init cs Hcs) Hw s rs H). Qed.
Lemma sim_ram_no_error cs os s rs size k num : 0 < cs -> Forall (whole_cells cs) os -> do_allocs cs sr_init os = Some (s, rs) -> k mod cs = 0 ->
  (exists r, malloc cs s size k = Some r) /\ (exists r, calloc cs s num size k None = Some r).
Proof.
  intros Hcs Hw H Hk. split; [apply malloc_ok; exact Hcs|]. apply calloc_ok; [exact Hcs|].
  pose proof (allocs_st_ok cs Hcs os sr_init s rs (st_ok_init cs Hcs) Hw H) as Hs. unfold st_ok in Hs. rewrite Nat.add_mod, Hs, Hk by lia. apply Nat.mod_0_l. lia.
Qed.
Lemma sim_ram_read cs size n os s rs k vs : 0 < cs -> 0 < size -> cs = n * size -> Forall (whole_cells cs) os -> do_allocs cs sr_init os = Some (s, rs) ->
  k mod cs = 0 -> Forall (fun v => (v < 2 ^ N.of_nat (size * 8))%N) vs ->
  exists s1 a, calloc cs s (length vs) size k (Some vs) = Some (s1, a) /\
    forall os2 s2 rs2, do_allocs cs s1 os2 = Some (s2, rs2) -> get_array cs s2 a size (length vs) = map (fun v => (v, N.ones (N.of_nat (size * 8)))) vs.
Proof.
  intros Hcs Hsz Hn Hw H Hk Hv. pose proof (allocs_st_ok cs Hcs os sr_init s rs (st_ok_init cs Hcs) Hw H) as Hs.
  destruct (calloc_read cs Hcs size n Hsz Hn s k vs Hs Hk Hv) as (s1 & E & G). exists s1, (bound cs s + k). auto.
Qed.
