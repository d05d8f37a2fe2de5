(** Proofs about AxiResize. *)
From Verif Require Import Base BaseFacts HsRegModel FifoModel FifoSpec FifoProofs HsFifoProofs RszModel RszSpec.

Lemma al_bits n : 1 <= n -> log2ceil (2 ^ n - 1) = n.
Proof.
  intros H. unfold log2ceil. destruct (Nat.leb_spec (2 ^ n - 1) 1) as [L|L].
  - destruct n as [|[|n]]; [lia|reflexivity|]. cbn [Nat.pow] in L. pose proof (pow2_pos n). lia.
  - apply Nat.log2_up_unique; [lia|]. destruct n as [|n]; [lia|]. cbn [pred Nat.pow] in *. pose proof (pow2_pos n). lia.
Qed.

Lemma comb_app {A B} (a1 a2 : list A) (b1 b2 : list B) : length a1 = length b1 ->
  combine (a1 ++ a2) (b1 ++ b2) = combine a1 b1 ++ combine a2 b2.
Proof. revert b1. induction a1; intros [|b b1] H; cbn in *; try lia; [reflexivity|]. rewrite IHa1 by lia. reflexivity. Qed.

Lemma comb_repeat {A B} (a : A) (b : B) n : combine (repeat a n) (repeat b n) = repeat (a, b) n.
Proof. induction n; cbn; congruence. Qed.

Section Words.
  Context {V : Type} (z : V) (a b OAW : nat).
  Hypothesis Ha : 1 <= a. Hypothesis Hab : a < b.
  Notation BI := (2 ^ a). Notation BO := (2 ^ b).
  Definition wf (c : nat) := fun '(j, (d, s)) => if s : bool then [(c + j, d : V)] else [].

  Lemma ratio : BO = BI * 2 ^ (b - a).
  Proof. rewrite <- Nat.pow_add_r. f_equal. lia. Qed.

  Lemma lane_eq x : lane BI BO x = x / BI mod 2 ^ (b - a).
  Proof. unfold lane, AL_IN, AL_OUT. rewrite !al_bits by lia. reflexivity. Qed.

  Lemma aligned_eq x : x < 2 ^ OAW -> aligned BO OAW x = x / BO * BO.
  Proof.
    intros H. unfold aligned, AL_OUT. rewrite !al_bits by lia. apply wrap_small.
    pose proof (pow2_pos b). pose proof (Nat.mul_div_le x BO). lia.
  Qed.

  Lemma lane_lt x : (lane BI BO x + 1) * BI <= BO.
  Proof.
    rewrite lane_eq, ratio. pose proof (Nat.mod_upper_bound (x / BI) (2 ^ (b - a))).
    pose proof (pow2_pos (b - a)). rewrite Nat.mul_comm. apply Nat.mul_le_mono_l. lia.
  Qed.

  Lemma base_eq x : x < 2 ^ OAW -> aligned BO OAW x / BO * BO + lane BI BO x * BI = x / BI * BI.
  Proof.
    intros H. rewrite aligned_eq, lane_eq by assumption. pose proof (pow2_pos b). pose proof (pow2_pos a).
    pose proof (pow2_pos (b - a)).
    rewrite Nat.div_mul by lia. rewrite ratio at 1 2. rewrite <- Nat.div_div by lia.
    set (y := x / BI). set (R := 2 ^ (b - a)) in *. pose proof (Nat.div_mod_eq y R).
    set (q := y / R) in *. set (r := y mod R) in *. clearbody q r R y. rewrite H3. ring.
  Qed.

  Lemma wf_shift c p n cs : flat_map (wf c) (combine (seq p n) cs) = flat_map (wf (c + p)) (combine (seq 0 n) cs).
  Proof.
    assert (forall k c p, flat_map (wf c) (combine (seq (p + k) n) cs) = flat_map (wf (c + p)) (combine (seq k n) cs)) as G.
    { revert cs. induction n as [|n IH]; intros [|[d s] cs] k c' p'; try reflexivity. cbn [seq combine flat_map wf]. f_equal.
      - destruct s; [|reflexivity]. do 2 f_equal. lia.
      - replace (S (p' + k)) with (p' + S k) by lia. apply IH. }
    specialize (G 0 c p). rewrite Nat.add_0_r in G. exact G.
  Qed.

  Lemma wf_none c js n : flat_map (wf c) (combine js (repeat (z, false) n)) = [].
  Proof. revert n. induction js as [|j js IH]; intros [|n]; try reflexivity. cbn. apply IH. Qed.

  Lemma writes_place x w : x < 2 ^ OAW -> length (fst w) = BI -> length (snd w) = BI ->
    writes BO (aligned BO OAW x) (place BI BO z (lane BI BO x) (fst w), place BI BO false (lane BI BO x) (snd w)) = writes BI x w.
  Proof.
    intros Hx H1 H2. unfold writes. cbn [fst snd]. change (fun '(j, (d, s)) => if s : bool then [(?c + j, d)] else []) with (wf c).
    pose proof (lane_lt x) as L. pose proof (base_eq x Hx) as E. set (i := lane BI BO x) in *. unfold place.
    rewrite !comb_app, !comb_repeat by (rewrite ?repeat_length; lia).
    replace (seq 0 BO) with (seq 0 (i * BI) ++ seq (i * BI) BI ++ seq (i * BI + BI) (BO - (i + 1) * BI)).
    2:{ rewrite <- !seq_app. f_equal. lia. }
    rewrite !comb_app by (rewrite ?seq_length, ?repeat_length, ?combine_length; lia).
    rewrite !flat_map_app.
    change (flat_map (wf (aligned BO OAW x / BO * BO)) (combine (seq 0 (i * BI)) (repeat (z, false) (i * BI))) ++
      flat_map (wf (aligned BO OAW x / BO * BO)) (combine (seq (i * BI) BI) (combine (fst w) (snd w))) ++
      flat_map (wf (aligned BO OAW x / BO * BO)) (combine (seq (i * BI + BI) (BO - (i + 1) * BI)) (repeat (z, false) (BO - (i + 1) * BI))) =
      flat_map (wf (x / BI * BI)) (combine (seq 0 BI) (combine (fst w) (snd w)))).
    rewrite !wf_none, app_nil_r. cbn [app]. rewrite wf_shift, E. reflexivity.
  Qed.

  Lemma pick_word (f : nat -> V) x : x < 2 ^ OAW -> pick BI (lane BI BO x) (word_at BO f (aligned BO OAW x)) = word_at BI f x.
  Proof.
    intros Hx. pose proof (lane_lt x) as L. pose proof (base_eq x Hx) as E. set (i := lane BI BO x) in *. unfold pick, word_at.
    set (c := aligned BO OAW x / BO * BO) in *.
    replace (seq c BO) with (seq c (i * BI) ++ seq (c + i * BI) BI ++ seq (c + i * BI + BI) (BO - (i + 1) * BI)).
    2:{ rewrite <- !seq_app. f_equal. lia. }
    rewrite !map_app. rewrite skipn_app, skipn_all2 by (rewrite map_length, seq_length; lia).
    rewrite map_length, seq_length, Nat.sub_diag. cbn [app skipn].
    rewrite firstn_app, firstn_all2 by (rewrite map_length, seq_length; lia).
    rewrite map_length, seq_length, Nat.sub_diag, firstn_O, app_nil_r, E. reflexivity.
  Qed.
End Words.

(** The address path. *)
Section Path.
  Context {X : Type}.
  Variables BI BO OAW DEPTH : nat.
  Hypothesis HD : 2 <= DEPTH.
  Definition out_a (p : nat * X) : nat * X := (aligned BO OAW (fst p), snd p).
  Definition PInv (s : apath) (acc snt : list (nat * X)) (pops : list nat) : Prop :=
    exists raw q, sk (p_buf s) = KLat /\ acc = raw ++ (if occ (p_buf s) then [sdat (p_buf s)] else []) /\ snt = map out_a raw /\
      HRep DEPTH (p_fifo s) q /\ map (fun p => lane BI BO (fst p)) raw = pops ++ q.

  Lemma pinv_init x0 m0 d0 : PInv (ap_init x0 DEPTH m0 d0) [] [] [].
  Proof.
    exists [], []. repeat apply conj; try reflexivity. cbn [ap_init p_fifo]. apply hrep_init; [exact HD|].
    unfold init_ok. cbn [length]. lia.
  Qed.

  Lemma pinv_step s i acc snt pops : PInv s acc snt pops ->
    let o := snd (ap_step BI BO OAW DEPTH s i) in
    PInv (fst (ap_step BI BO OAW DEPTH s i)) (acc ++ when (pi_vld i && po_rd o) (pi_a i)) (snt ++ when (po_vld o && pi_mrd i) (po_a o))
         (pops ++ when (po_lvld o && pi_lrd i) (po_lane o)).
  Proof.
    intros (raw & q & K & E1 & E2 & R & E3) o.
    set (fi := mk_hin (occ (p_buf s) && pi_mrd i) (lane BI BO (fst (sdat (p_buf s)))) (pi_lrd i)).
    pose proof (hrep_step DEPTH HD _ _ fi R) as H. cbv zeta in H.
    destruct H as (R' & Hv & _).
    assert (Es : ap_step BI BO OAW DEPTH s i =
      (mk_ap (stage_next (p_buf s) (pi_vld i) (pi_a i) (pi_mrd i && h_rd (snd (hsf_step DEPTH (p_fifo s) fi))))
             (fst (hsf_step DEPTH (p_fifo s) fi)),
       mk_apo (stage_rd (p_buf s) (pi_mrd i && h_rd (snd (hsf_step DEPTH (p_fifo s) fi)))) (occ (p_buf s) && h_rd (snd (hsf_step DEPTH (p_fifo s) fi)))
        (out_a (sdat (p_buf s))) (h_vld (snd (hsf_step DEPTH (p_fifo s) fi))) (h_data (snd (hsf_step DEPTH (p_fifo s) fi))))).
    { unfold ap_step. fold fi. destruct (hsf_step DEPTH (p_fifo s) fi). reflexivity. }
    unfold o. rewrite Es. cbn [fst snd po_rd po_vld po_a po_lvld po_lane].
    set (fo := snd (hsf_step DEPTH (p_fifo s) fi)) in *. cbn [i_vld i_data i_rd fi] in R', Hv.
    exists (raw ++ when (occ (p_buf s) && pi_mrd i && h_rd fo) (sdat (p_buf s))).
    eexists. cbn [p_buf p_fifo]. split; [|split; [|split; [|split; [exact R'|]]]].
    - unfold stage_next. rewrite K. reflexivity.
    - unfold stage_next, stage_rd. rewrite K, E1. cbn [occ sdat].
      destruct (occ (p_buf s)), (pi_vld i), (pi_mrd i), (h_rd fo); cbn; rewrite <- ?app_assoc, ?app_nil_r; reflexivity.
    - rewrite E2, map_app. f_equal. destruct (occ (p_buf s)), (pi_mrd i), (h_rd fo); reflexivity.
    - rewrite map_app, E3, <- !app_assoc. f_equal. rewrite app_assoc. f_equal.
      + destruct (h_vld fo) eqn:Ev; [|cbn; reflexivity]. destruct (Hv eq_refl) as [q' ->]. destruct (pi_lrd i); reflexivity.
      + destruct (occ (p_buf s)), (pi_mrd i), (h_rd fo); reflexivity.
  Qed.
End Path.

Section PathKeep.
  Context {X : Type}.
  Variables BI BO OAW DEPTH : nat.
  Hypothesis HD : 2 <= DEPTH.
  Notation step := (ap_step (X := X) BI BO OAW DEPTH).

  Lemma ap_split (s : apath) i : exists fi, fi = mk_hin (occ (p_buf s) && pi_mrd i) (lane BI BO (fst (sdat (p_buf s)))) (pi_lrd i) /\
    step s i =
      (mk_ap (stage_next (p_buf s) (pi_vld i) (pi_a i) (pi_mrd i && h_rd (snd (hsf_step DEPTH (p_fifo s) fi))))
             (fst (hsf_step DEPTH (p_fifo s) fi)),
       mk_apo (stage_rd (p_buf s) (pi_mrd i && h_rd (snd (hsf_step DEPTH (p_fifo s) fi)))) (occ (p_buf s) && h_rd (snd (hsf_step DEPTH (p_fifo s) fi)))
        (out_a BO OAW (sdat (p_buf s))) (h_vld (snd (hsf_step DEPTH (p_fifo s) fi))) (h_data (snd (hsf_step DEPTH (p_fifo s) fi)))).
  Proof.
    eexists. split; [reflexivity|]. unfold ap_step. destruct (hsf_step DEPTH (p_fifo s) _). reflexivity.
  Qed.

  Lemma fifo_rd_keeps (f : hsf_st nat) q fi j : HRep DEPTH f q -> i_vld fi = false -> h_rd (snd (hsf_step DEPTH f fi)) = true ->
    h_rd (snd (hsf_step DEPTH (fst (hsf_step DEPTH f fi)) j)) = true.
  Proof.
    intros [qi [R _]] Hv Hr. rewrite step_out in *. cbn [h_rd] in *. pose proof (HD1 _ HD) as D1.
    rewrite (rep_wwait _ D1 _ _ R) in Hr. pose proof (rep_len _ _ _ R) as L.
    unfold hsf_step, inner_depth. rewrite Hv. cbn [andb]. destruct (fifo_step _ _ _) as [f' fo] eqn:E. cbn [fst hf].
    set (gi := mk_fin false (i_data fi) ((i_rd fi || negb (ovld f)) && negb (f_rwait (hf f)))) in *.
    pose proof (rep_step _ D1 (hf f) qi gi R) as S. cbv zeta in S. rewrite E in S. cbn [fst w_en gi] in S.
    destruct S as [S _]; [discriminate|]. rewrite (rep_wwait _ D1 _ _ S). unfold q_next. rewrite app_nil_r.
    destruct (Nat.eqb_spec (length qi) (DEPTH - 1)) as [Eq|Eq]; [discriminate|].
    match goal with |- negb (?x =? ?y) = true => destruct (Nat.eqb_spec x y) as [E'|E']; [|reflexivity] end. exfalso.
    revert E'. match goal with |- context [if ?b then _ else _] => destruct b end; [destruct qi; cbn [tl length] in *|]; lia.
  Qed.

  Lemma ap_hold s acc snt pops i j : PInv BI BO OAW DEPTH s acc snt pops ->
    let o := snd (step s i) in let o' := snd (step (fst (step s i)) j) in
    (po_vld o = true -> pi_mrd i = false -> po_vld o' = true /\ po_a o' = po_a o) /\
    (po_lvld o = true -> pi_lrd i = false -> po_lvld o' = true /\ po_lane o' = po_lane o) /\
    (length pops < length snt -> po_lvld o = false -> po_lvld o' = true) /\
    (length pops + 1 < length snt -> po_lvld o = true -> pi_lrd i = true -> po_lvld o' = true) /\
    (length snt < length pops + (DEPTH - 1) -> length snt < length acc -> po_vld o = true) /\
    (length acc <= length snt + 1) /\ (length snt = length acc -> po_rd o = true) /\ length snt <= length pops + DEPTH.
  Proof.
    intros (raw & q & K & E1 & E2 & R & E3). cbv zeta. destruct (ap_split s i) as (fi & Ef & Es).
    destruct (ap_split (fst (step s i)) j) as (fj & Efj & Es'). rewrite Es'. cbn [snd po_vld po_a po_lvld po_lane po_rd].
    rewrite Es in Efj |- *. cbn [fst snd p_buf p_fifo po_vld po_a po_lvld po_lane po_rd] in *.
    pose proof (hrep_step DEPTH HD _ _ fi R) as H. cbv zeta in H. destruct H as (R' & Hv & Hk & Hlt & _ & _ & H1 & H2).
    pose proof (fifo_rd_keeps _ _ fi fj R) as Hrd. rewrite (step_out _ (fst (hsf_step DEPTH (p_fifo s) fi))) in *. cbn [h_vld h_data h_rd] in *.
    assert (L : length raw = length pops + length q) by (rewrite <- app_length, <- E3, map_length; reflexivity).
    assert (L2 : length snt = length raw) by (rewrite E2, map_length; reflexivity).
    pose proof (hrep_len _ HD _ _ R) as L3.
    assert (Ev : i_rd fi = pi_lrd i) by (rewrite Ef; reflexivity). rewrite Ev in *.
    split; [|split; [|split; [|split; [|split; [|split; [|split]]]]]].
    - intros Hp Hm. apply andb_true_iff in Hp. destruct Hp as [Hp1 Hp2]. rewrite Hm.
      cbn [andb]. unfold stage_next. rewrite K, Hp1. cbn [occ sdat andb negb]. rewrite andb_false_r. cbn [sdat occ].
      split; [|reflexivity]. apply Hrd; [|exact Hp2]. rewrite Ef. cbn [i_vld]. rewrite Hm. apply andb_false_r.
    - intros Hp Hm. apply Hk; assumption.
    - intros Hlen Hp. apply H1; [exact Hp|]. intros ->. cbn [length] in L. lia.
    - intros Hlen Hp Hm. apply H2; [assumption..|]. destruct q as [|x [|y q]]; cbn [length] in L; try lia. discriminate.
    - intros Hd Ha. rewrite Hlt by lia. rewrite E1, app_length in Ha. destruct (occ (p_buf s)); [reflexivity|cbn [length] in Ha; lia].
    - rewrite E1, app_length. destruct (occ (p_buf s)); cbn [length]; lia.
    - intros He. rewrite E1, app_length in He. unfold stage_rd. rewrite K. destruct (occ (p_buf s)); [cbn [length] in He; lia|reflexivity].
    - lia.
  Qed.
End PathKeep.

Section Top.
  Context {V X P : Type} (z : V) (x0 : nat * X).
  Variables a b OAW DEPTH : nat.
  Hypothesis Ha : 1 <= a. Hypothesis Hab : a < b. Hypothesis HD : 2 <= DEPTH.
  Notation BI := (2 ^ a). Notation BO := (2 ^ b).
  Notation step := (rs_step (V := V) (X := X) (P := P) z BI BO OAW DEPTH).
  Notation cyc := (rs_in V X P * rs_out V X P)%type.
  Definition pw (l : nat) (w : list V * list bool) := (place BI BO z l (fst w), place BI BO false l (snd w)).
  Definition pr (l : nat) (r : list V * P) := (pick BI l (fst r), snd r).

  Definition TInv (s : apath (X := X) * apath (X := X)) (t : list cyc) : Prop :=
    (exists lw, PInv BI BO OAW DEPTH (fst s) (s_aw t) (m_aw t) lw /\ length lw = length (s_w t) /\
       m_w t = map (fun p => pw (fst p) (snd p)) (combine lw (s_w t))) /\
    (exists lr, PInv BI BO OAW DEPTH (snd s) (s_ar t) (m_ar t) lr /\ length lr = length (m_r t) /\
       s_r t = map (fun p => pr (fst p) (snd p)) (combine lr (m_r t))).

  Lemma tinv_step s t i : TInv s t -> TInv (fst (step s i)) (t ++ [(i, snd (step s i))]).
  Proof.
    intros [(lw & I1 & L1 & E1) (lr & I2 & L2 & E2)].
    pose proof (pinv_step _ _ _ _ HD _ (mk_api (i_awv i) (i_aw i) (i_mawrd i) (i_wv i && i_mwrd i)) _ _ _ I1) as S1.
    pose proof (pinv_step _ _ _ _ HD _ (mk_api (i_arv i) (i_ar i) (i_marrd i) (i_mrv i && i_rrd i)) _ _ _ I2) as S2.
    unfold rs_step. destruct (ap_step BI BO OAW DEPTH (fst s) _) as [w' wo]. destruct (ap_step BI BO OAW DEPTH (snd s) _) as [r' ro].
    cbv zeta in S1, S2. cbn [fst snd pi_vld pi_a pi_mrd pi_lrd] in S1, S2. unfold TInv. cbn [fst snd].
    unfold s_aw, m_aw, s_w, m_w, s_ar, m_ar, m_r, s_r in *. rewrite !flat_map_app.
    cbn [flat_map fst snd o_awrd o_wrd o_bv o_b o_arrd o_rv o_r o_mawv o_maw o_mwv o_mw o_mbrd o_marv o_mar o_mrrd]. rewrite !app_nil_r.
    split.
    - eexists. split; [exact S1|].
      replace (i_wv i && (po_lvld wo && i_mwrd i)) with (po_lvld wo && (i_wv i && i_mwrd i)) by (destruct (i_wv i), (po_lvld wo), (i_mwrd i); reflexivity).
      replace (i_wv i && po_lvld wo && i_mwrd i) with (po_lvld wo && (i_wv i && i_mwrd i)) by (destruct (i_wv i), (po_lvld wo), (i_mwrd i); reflexivity).
      destruct (po_lvld wo && (i_wv i && i_mwrd i)); cbn [when]; [|rewrite !app_nil_r; auto].
      split; [rewrite !app_length; cbn [length]; lia|]. rewrite comb_app, map_app, E1 by exact L1. reflexivity.
    - eexists. split; [exact S2|].
      replace (i_mrv i && (po_lvld ro && i_rrd i)) with (po_lvld ro && (i_mrv i && i_rrd i)) by (destruct (i_mrv i), (po_lvld ro), (i_rrd i); reflexivity).
      replace (i_mrv i && po_lvld ro && i_rrd i) with (po_lvld ro && (i_mrv i && i_rrd i)) by (destruct (i_mrv i), (po_lvld ro), (i_rrd i); reflexivity).
      destruct (po_lvld ro && (i_mrv i && i_rrd i)); cbn [when]; [|rewrite !app_nil_r; auto].
      split; [rewrite !app_length; cbn [length]; lia|]. rewrite comb_app, map_app, E2 by exact L2. reflexivity.
  Qed.

  Lemma tinv_run m1 m2 d1 d2 is : TInv (final step (rs_init x0 DEPTH m1 m2 d1 d2) is) (trace step (rs_init x0 DEPTH m1 m2 d1 d2) is).
  Proof.
    apply trace_ind.
    - split; exists []; (split; [apply pinv_init; exact HD|split; reflexivity]).
    - intros s t i. apply tinv_step.
  Qed.

  (** facts about inputs which hold of all accepted items *)
  Lemma in_accepted (s : apath * apath) is :
    Forall (rs_env BI OAW) is -> let t := trace step s is in
    Forall (fun p => fst p < 2 ^ OAW) (s_aw t) /\ Forall (fun p => fst p < 2 ^ OAW) (s_ar t) /\
    Forall (fun w => length (fst w) = BI /\ length (snd w) = BI) (s_w t).
  Proof.
    intros H t. unfold t. clear t. revert s. induction H as [|i is (E1 & E2 & E3 & E4) F IH]; intros s; [repeat split; constructor|].
    destruct (IH (fst (step s i))) as (G1 & G2 & G3). rewrite trace_cons. unfold s_aw, s_ar, s_w in *. cbn [flat_map fst snd].
    repeat split; (apply Forall_app; split; [|assumption]);
      match goal with |- Forall _ (when ?c _) => destruct c end; cbn [when]; repeat constructor; assumption.
  Qed.

  Lemma pinv_nth s acc snt pops k l : PInv (X := X) BI BO OAW DEPTH s acc snt pops -> nth_error pops k = Some l ->
    exists p, nth_error acc k = Some p /\ nth_error snt k = Some (out_a BO OAW p) /\ l = lane BI BO (fst p).
  Proof.
    intros (raw & q & _ & E1 & E2 & _ & E3) H.
    assert (H' : nth_error (map (fun p => lane BI BO (fst p)) raw) k = Some l).
    { rewrite E3, nth_error_app1; [exact H|]. apply nth_error_Some. congruence. }
    rewrite nth_error_map in H'. destruct (nth_error raw k) as [p|] eqn:E; [|discriminate]. injection H' as <-.
    exists p. split; [|split; [|reflexivity]].
    - rewrite E1, nth_error_app1; [exact E|]. apply nth_error_Some. congruence.
    - rewrite E2, nth_error_map, E. reflexivity.
  Qed.

  Lemma nth_comb {A B} (la : list A) (lb : list B) k p : nth_error (combine la lb) k = Some p ->
    nth_error la k = Some (fst p) /\ nth_error lb k = Some (snd p).
  Proof.
    revert lb k. induction la as [|x la IH]; intros [|y lb] [|k] H; cbn in *; try discriminate; [injection H as <-; auto|eauto].
  Qed.

  Lemma rs_write m1 m2 d1 d2 is : Forall (rs_env BI OAW) is -> let t := trace step (rs_init x0 DEPTH m1 m2 d1 d2) is in
    length (m_w t) = length (s_w t) /\
    forall k w', nth_error (m_w t) k = Some w' ->
      exists ad ad' x w, nth_error (s_aw t) k = Some (ad, x) /\ nth_error (m_aw t) k = Some (ad', x) /\ nth_error (s_w t) k = Some w /\
        writes BO ad' w' = writes BI ad w.
  Proof.
    intros He t. destruct (tinv_run m1 m2 d1 d2 is) as [(lw & I1 & L1 & E1) _]. fold t in I1, L1, E1.
    destruct (in_accepted (rs_init x0 DEPTH m1 m2 d1 d2) is He) as (F1 & _ & F3). fold t in F1, F3.
    split; [rewrite E1, map_length, combine_length; lia|]. intros k w' H. rewrite E1, nth_error_map in H.
    destruct (nth_error (combine lw (s_w t)) k) as [[l w]|] eqn:E; [|discriminate]. injection H as <-.
    apply nth_comb in E. cbn [fst snd] in E. destruct E as [El Ew].
    destruct (pinv_nth _ _ _ _ _ _ I1 El) as ([ad x] & A1 & A2 & ->). exists ad, (aligned BO OAW ad), x, w.
    split; [exact A1|]. split; [exact A2|]. split; [exact Ew|].
    rewrite Forall_forall in F1, F3. apply nth_error_In in A1, Ew. specialize (F1 _ A1). specialize (F3 _ Ew).
    unfold pw. cbn [fst snd] in *. apply writes_place; tauto.
  Qed.

  Lemma rs_read m1 m2 d1 d2 is : Forall (rs_env BI OAW) is -> let t := trace step (rs_init x0 DEPTH m1 m2 d1 d2) is in
    length (s_r t) = length (m_r t) /\
    forall k d r, nth_error (s_r t) k = Some (d, r) ->
      exists ad ad' x d', nth_error (s_ar t) k = Some (ad, x) /\ nth_error (m_ar t) k = Some (ad', x) /\ nth_error (m_r t) k = Some (d', r) /\
        forall f, d' = word_at BO f ad' -> d = word_at BI f ad.
  Proof.
    intros He t. destruct (tinv_run m1 m2 d1 d2 is) as [_ (lw & I1 & L1 & E1)]. fold t in I1, L1, E1.
    destruct (in_accepted (rs_init x0 DEPTH m1 m2 d1 d2) is He) as (_ & F1 & _). fold t in F1.
    split; [rewrite E1, map_length, combine_length; lia|]. intros k d r H. rewrite E1, nth_error_map in H.
    destruct (nth_error (combine lw (m_r t)) k) as [[l [d' r']]|] eqn:E; [|discriminate]. cbn in H. injection H as <- <-.
    apply nth_comb in E. cbn [fst snd] in E. destruct E as [El Ew].
    destruct (pinv_nth _ _ _ _ _ _ I1 El) as ([ad x] & A1 & A2 & ->). exists ad, (aligned BO OAW ad), x, d'.
    split; [exact A1|]. split; [exact A2|]. split; [exact Ew|].
    rewrite Forall_forall in F1. apply nth_error_In in A1. specialize (F1 _ A1). cbn [fst] in *.
    intros f ->. apply pick_word; assumption.
  Qed.

  Lemma rs_addr m1 m2 d1 d2 is : Forall (rs_env BI OAW) is -> let t := trace step (rs_init x0 DEPTH m1 m2 d1 d2) is in
    let al := map (fun p : nat * X => (fst p / BO * BO, snd p)) in
    (exists w, al (s_aw t) = m_aw t ++ w /\ length w <= 1) /\ (exists r, al (s_ar t) = m_ar t ++ r /\ length r <= 1) /\
    length (m_aw t) <= length (m_w t) + DEPTH /\ length (m_ar t) <= length (m_r t) + DEPTH.
  Proof.
    intros He t al. destruct (tinv_run m1 m2 d1 d2 is) as [(lw & I1 & L1 & E1) (lr & I2 & L2 & E2)]. fold t in I1, L1, E1, I2, L2, E2.
    destruct (in_accepted (rs_init x0 DEPTH m1 m2 d1 d2) is He) as (F1 & F2 & _). fold t in F1, F2.
    assert (G : forall s acc snt pops, PInv BI BO OAW DEPTH s acc snt pops -> Forall (fun p => fst p < 2 ^ OAW) acc ->
      (exists w, al acc = snt ++ w /\ length w <= 1) /\ length snt <= length pops + DEPTH).
    { intros s acc snt pops (raw & q & _ & A1 & A2 & R & A3) F. split.
      - eexists. split.
        + rewrite A1, A2. unfold al. rewrite map_app. f_equal. apply map_ext_in. intros p Hp. unfold out_a. f_equal.
          symmetry. apply (aligned_eq a b OAW Ha Hab). rewrite A1, Forall_app in F. destruct F as [F _]. rewrite Forall_forall in F. auto.
        + rewrite map_length. destruct (occ _); cbn; lia.
      - rewrite A2, map_length. pose proof (hrep_len _ HD _ _ R). apply (f_equal (@length _)) in A3. rewrite map_length, app_length in A3. lia. }
    destruct (G _ _ _ _ I1 F1) as [G1 G2]. destruct (G _ _ _ _ I2 F2) as [G3 G4].
    split; [exact G1|]. split; [exact G3|]. split; [|lia]. rewrite E1, map_length, combine_length. lia.
  Qed.

  Lemma rs_pins (s : apath * apath) i :
    exists wo ro, wo = ap_step BI BO OAW DEPTH (fst s) (mk_api (i_awv i) (i_aw i) (i_mawrd i) (i_wv i && i_mwrd i)) /\
      ro = ap_step BI BO OAW DEPTH (snd s) (mk_api (i_arv i) (i_ar i) (i_marrd i) (i_mrv i && i_rrd i)) /\
      step s i = (fst wo, fst ro,
        mk_ro (po_rd (snd wo)) (po_lvld (snd wo) && i_mwrd i) (i_mbv i) (i_mb i) (po_rd (snd ro)) (i_mrv i && po_lvld (snd ro))
           (pr (po_lane (snd ro)) (i_mr i)) (po_vld (snd wo)) (po_a (snd wo)) (i_wv i && po_lvld (snd wo)) (pw (po_lane (snd wo)) (i_w i))
           (i_brd i) (po_vld (snd ro)) (po_a (snd ro)) (po_lvld (snd ro) && i_rrd i)).
  Proof.
    do 2 eexists. split; [reflexivity|]. split; [reflexivity|]. unfold rs_step.
    destruct (ap_step BI BO OAW DEPTH (fst s) _) as [w' wo]. destruct (ap_step BI BO OAW DEPTH (snd s) _) as [r' ro]. reflexivity.
  Qed.

  Lemma rs_two m1 m2 d1 d2 is i j : let t := trace step (rs_init x0 DEPTH m1 m2 d1 d2) is in
    let s := final step (rs_init x0 DEPTH m1 m2 d1 d2) is in
    let o := snd (step s i) in let o' := snd (step (fst (step s i)) j) in
    ((o_mawv o = true -> i_mawrd i = false -> o_mawv o' = true /\ o_maw o' = o_maw o) /\
     (o_marv o = true -> i_marrd i = false -> o_marv o' = true /\ o_mar o' = o_mar o) /\
     (o_mwv o = true -> i_mwrd i = false -> i_wv j = true -> i_w j = i_w i -> o_mwv o' = true /\ o_mw o' = o_mw o) /\
     (o_rv o = true -> i_rrd i = false -> i_mrv j = true -> i_mr j = i_mr i -> o_rv o' = true /\ o_r o' = o_r o) /\
     (o_bv o = i_mbv i /\ o_b o = i_mb i /\ o_mbrd o = i_brd i)) /\
    ((length (m_aw t) = length (s_aw t) -> o_awrd o = true) /\
     (length (m_ar t) = length (s_ar t) -> o_arrd o = true) /\
     (length (m_aw t) < length (s_aw t) -> length (m_aw t) < length (m_w t) + (DEPTH - 1) -> o_mawv o = true) /\
     (length (m_ar t) < length (s_ar t) -> length (m_ar t) < length (m_r t) + (DEPTH - 1) -> o_marv o = true) /\
     (length (m_w t) + Nat.b2n (o_mwv o && i_mwrd i) < length (m_aw t) -> o_mwv o' = i_wv j /\ o_wrd o' = i_mwrd j) /\
     (length (m_r t) + Nat.b2n (i_mrv i && o_mrrd o) < length (m_ar t) -> o_rv o' = i_mrv j /\ o_mrrd o' = i_rrd j)).
  Proof.
    cbv zeta. destruct (tinv_run m1 m2 d1 d2 is) as [(lw & I1 & L1 & E1) (lr & I2 & L2 & E2)].
    assert (L3 : length (m_w (trace step (rs_init x0 DEPTH m1 m2 d1 d2) is)) = length lw) by (rewrite E1, map_length, combine_length; lia). clear E1 E2.
    rewrite L3, <- L2.
    set (t := trace step (rs_init x0 DEPTH m1 m2 d1 d2) is) in *. set (s := final step (rs_init x0 DEPTH m1 m2 d1 d2) is) in *. clearbody t s.
    destruct (rs_pins s i) as (wo & ro & Ew & Er & ->). cbn [fst snd].
    destruct (rs_pins (fst wo, fst ro) j) as (wo' & ro' & Ew' & Er' & ->). cbn [fst snd] in *.
    cbn [fst snd o_awrd o_wrd o_bv o_b o_arrd o_rv o_r o_mawv o_maw o_mwv o_mw o_mbrd o_marv o_mar o_mrrd].
    pose proof (ap_hold _ _ _ _ HD _ _ _ _ (mk_api (i_awv i) (i_aw i) (i_mawrd i) (i_wv i && i_mwrd i)) (mk_api (i_awv j) (i_aw j) (i_mawrd j) (i_wv j && i_mwrd j)) I1) as K1.
    pose proof (ap_hold _ _ _ _ HD _ _ _ _ (mk_api (i_arv i) (i_ar i) (i_marrd i) (i_mrv i && i_rrd i)) (mk_api (i_arv j) (i_ar j) (i_marrd j) (i_mrv j && i_rrd j)) I2) as K2.
    cbv zeta in K1, K2. rewrite <- Ew in K1. rewrite <- Er in K2. rewrite <- Ew' in K1. rewrite <- Er' in K2. cbn [pi_mrd pi_lrd] in K1, K2.
    destruct K1 as (A1 & A2 & A3 & A4 & A5 & A6 & A7 & _). destruct K2 as (B1 & B2 & B3 & B4 & B5 & B6 & B7 & _).
    split; [split; [|split; [|split; [|split; [|auto]]]]|split; [|split; [|split; [|split; [|split]]]]]; try assumption.
    - intros H1 H2 H3 H4. apply andb_true_iff in H1. destruct A2 as [-> ->]; [tauto|rewrite H2; apply andb_false_r|]. rewrite H3, H4. auto.
    - intros H1 H2 H3 H4. apply andb_true_iff in H1. destruct B2 as [-> ->]; [tauto|rewrite H2; apply andb_false_r|]. rewrite H3, H4. auto.
    - intros H1 H2. apply A5; assumption.
    - intros H1 H2. apply B5; assumption.
    - intros H. enough (po_lvld (snd wo') = true) as -> by (rewrite andb_true_r; auto).
      destruct (po_lvld (snd wo)) eqn:Ev; [|apply A3; [cbn [Nat.b2n] in H; lia|reflexivity]].
      rewrite andb_true_r in H. destruct (i_wv i && i_mwrd i) eqn:Ep; [apply A4; cbn [Nat.b2n] in H; auto; lia|apply A2; auto].
    - intros H. enough (po_lvld (snd ro') = true) as -> by (rewrite andb_true_r; auto).
      destruct (po_lvld (snd ro)) eqn:Ev; [|apply B3; [cbn [andb] in H; lia|reflexivity]].
      cbn [andb] in H. destruct (i_mrv i && i_rrd i) eqn:Ep; [apply B4; cbn [Nat.b2n] in H; auto; lia|apply B2; auto].
  Qed.
End Top.
