From Coq Require Import Lia.
From Verif Require Import Base BaseFacts StreamSpec StreamFacts HsRegModel Mi32Model Mi32Spec.

Section ToAxi.
  Context {Ad W D : Type}.
  Notation step := (ma_step (Ad := Ad) (W := W) (D := D)).

  Definition wl (s : ma_st W) : list W := match m_w s with Some w => [w] | None => [] end.
  Lemma ma_write is : forall s,
    flat_map aw1 (trace step s is) = map fst (flat_map mwr1 (trace step s is)) /\
    wl s ++ map snd (flat_map mwr1 (trace step s is)) = flat_map w1 (trace step s is) ++ wl (final step s is).
  Proof.
    induction is as [|i is IH]; intros s; [split; [reflexivity|cbn; rewrite app_nil_r; reflexivity]|].
    rewrite trace_cons, final_cons. cbn [flat_map]. destruct (IH (fst (step s i))) as [A B]. rewrite !map_app, A.
    set (mw := flat_map mwr1 (trace step (fst (step s i)) is)) in *. set (fw := flat_map w1 (trace step (fst (step s i)) is)) in *.
    set (fs := final step (fst (step s i)) is) in *. clearbody mw fw fs. clear A IH.
    split.
    - f_equal. unfold aw1, mwr1, ma_step. cbn [fst snd xo_aw mo_ardy]. destruct (mi_wr i), (xi_ar i), (xi_aw i); cbn [andb map]; try reflexivity;
        destruct (_ || _); reflexivity.
    - rewrite <- app_assoc, <- B. rewrite !app_assoc. f_equal.
      unfold wl, mwr1, w1, ma_step. cbn [fst snd m_w mo_ardy xo_w]. destruct (m_w s), (mi_wr i), (xi_ar i), (xi_aw i), (xi_w i); reflexivity.
  Qed.
  Lemma ma_read is : forall s, Forall (fun i => xi_w i = true) is ->
    flat_map ar1 (trace step s is) = flat_map mrd1 (trace step s is).
  Proof.
    induction is as [|i is IH]; intros s H; [reflexivity|]. inversion H as [|? ? Hi Hs]; subst.
    rewrite trace_cons. cbn [flat_map]. rewrite IH by exact Hs. f_equal. unfold ar1, mrd1, ma_step. cbn [fst snd xo_ar mo_ardy].
    rewrite Hi, orb_true_r. destruct (mi_rd i), (xi_ar i), (xi_aw i); reflexivity.
  Qed.
  (** every accepted read is a request, in the same cycle *)
  Lemma ma_read_sub s i : mrd1 (i, snd (step s i)) = [] \/ mrd1 (i, snd (step s i)) = ar1 (i, snd (step s i)).
  Proof. unfold ar1, mrd1, ma_step. cbn [fst snd xo_ar mo_ardy]. destruct (mi_rd i), (xi_ar i), (xi_aw i), (_ || _); auto. Qed.
  Lemma ma_data s (i : ma_in Ad W D) : mo_d (snd (step s i)) = xi_r i. Proof. reflexivity. Qed.
End ToAxi.

Definition ex_ma : list (ma_in nat nat nat) :=
  [mk_mai false true 1 10 true true true None; mk_mai true false 2 0 true true false None; mk_mai true false 2 0 true true true None].
Lemma ma_refuted : exists is : list (ma_in nat nat nat),
  master_holds (trace ma_step ma_init is) /\ flat_map mrd1 (trace ma_step ma_init is) = [2] /\ flat_map ar1 (trace ma_step ma_init is) = [2; 2].
Proof. exists ex_ma. split; [|split; reflexivity]. cbn. repeat split; intros; discriminate. Qed.

Section FromAxi.
  Context {Ad W D : Type}.
  Variable rp : bool.
  Notation step := (am_step (Ad := Ad) (W := W) (D := D) rp).

  (** the registers in each phase *)
  Definition ph_rel (p : phase (Ad := Ad) (D := D)) (s : am_st Ad D) : Prop :=
    a_rp s = false /\ a_wp s = false /\
    match p with
    | Idle => a_vld s = false /\ a_dvld s = false
    | RdReq a => a_vld s = true /\ a_w s = false /\ a_addr s = a /\ a_dvld s = false
    | RdWait => a_vld s = false /\ a_dvld s = false
    | RdData d => a_vld s = false /\ a_dvld s = true /\ a_d s = d
    | WrReq a => a_vld s = true /\ a_w s = true /\ a_addr s = a /\ a_dvld s = false
    end.

  Lemma seq_step p s i : ph_rel p s -> seq_env p i ->
    seq_out p i (snd (step s i)) /\ ph_rel (seq_next p i) (fst (step s i)).
  Proof.
    intros R E. destruct s as [ad vl w d dv rpd wpd], i as [ar aw wd br rr ardy md].
    unfold ph_rel in R. cbn [a_rp a_wp a_vld a_w a_addr a_dvld a_d] in R. destruct R as (-> & -> & R).
    destruct p; cbn [seq_env axi_ar axi_aw axi_w axi_brd mi_d] in E.
    - destruct R as (-> & ->). destruct E as [E ->].
      destruct ar as [x|], aw as [y|]; [destruct E; discriminate| | |]; destruct rp, ardy, rr; cbn; repeat split; intros; try reflexivity; try discriminate.
    - destruct R as (-> & -> & -> & ->). destruct E as (-> & -> & ->). destruct rp, ardy, rr; cbn; repeat split; intros; try reflexivity; try discriminate.
    - destruct R as (-> & ->). destruct E as (-> & ->). destruct md, rp, ardy, rr; cbn; repeat split; intros; try reflexivity; try discriminate.
    - destruct R as (-> & -> & ->). destruct E as (-> & -> & ->). destruct rp, ardy, rr; cbn; repeat split; intros; try reflexivity; try discriminate.
    - destruct R as (-> & -> & -> & ->). destruct E as (-> & -> & E & -> & ->). destruct wd as [wd|]; [|destruct (E eq_refl)].
      destruct rp, ardy, rr; cbn; repeat split; intros; try reflexivity; try discriminate.
  Qed.
  Lemma am_seq is : forall p s, ph_rel p s -> seq_law p (trace step s is).
  Proof.
    induction is as [|i is IH]; intros p s R; [exact I|]. rewrite trace_cons. cbn [seq_law fst snd]. intros E.
    destruct (seq_step p s i R E) as [A B]. split; [exact A|]. apply IH. exact B.
  Qed.
  Lemma am_seq0 a d is : seq_law Idle (trace step (am_init a d) is).
  Proof. apply am_seq. repeat split. Qed.

  (** after the loss of a read nothing is accepted any more *)
  Definition dead (s : am_st Ad D) : Prop := a_rp s = true /\ a_dvld s = false.
  Lemma dead_run is : forall s, dead s -> Forall (fun i => mi_d i = None) is ->
    Forall (fun c => axo_ar (snd c) = false /\ axo_aw (snd c) = false /\ mo_rd (snd c) = false /\ mo_wr (snd c) = false /\ axo_r (snd c) = None)
      (trace step s is).
  Proof.
    induction is as [|i is IH]; intros s H Hi; [constructor|]. inversion Hi as [|? ? Hd His]; subst. rewrite trace_cons.
    destruct s as [ad vl w d dv rpd wpd]. destruct H as [H1 H2]. cbn in H1, H2. subst. destruct i as [ar aw wd br rr ardy md]. cbn in Hd. subst md.
    constructor.
    - unfold am_step. rewrite andb_false_r. cbn. destruct rp; repeat split.
    - apply IH; [|exact His]. unfold am_step. rewrite andb_false_r. cbn. destruct rr; split; reflexivity.
  Qed.
End FromAxi.

(** the second read comes with the data of the first one; mi32 is always ready *)
Definition ex_am : list (am_in nat nat nat) :=
  [mk_ami (Some 1) None None true true true None; mk_ami None None None true true true None; mk_ami None None None true true true (Some 100);
   mk_ami (Some 2) None None true true true None].
Lemma am_dead rp : exists is : list (am_in nat nat nat),
  flat_map axr1 (trace (am_step rp) (am_init 0 0) is) = [1; 2] /\
  forall js, Forall (fun i => mi_d i = None) js -> flat_map mir1 (trace (am_step rp) (am_init 0 0) (is ++ js)) = [1] /\
    forall c, In c (trace (am_step rp) (final (am_step rp) (am_init 0 0) is) js) -> axo_ar (snd c) = false /\ axo_aw (snd c) = false.
Proof.
  exists ex_am. split; [destruct rp; reflexivity|]. intros js H.
  assert (HD : dead (final (am_step (W := nat) rp) (am_init 0 0) ex_am)) by (destruct rp; split; reflexivity).
  pose proof (dead_run rp js _ HD H) as F. rewrite trace_app, flat_map_app.
  assert (E : flat_map mir1 (trace (am_step rp) (final (am_step rp) (am_init 0 0) ex_am) js) = []).
  { clear HD H. induction F as [|c l (A1 & A2 & A3 & A4 & A5) _ IH]; [reflexivity|]. cbn [flat_map]. rewrite IH. unfold mir1. rewrite A3. reflexivity. }
  rewrite E. split; [destruct rp; reflexivity|]. intros c Hc. rewrite Forall_forall in F. destruct (F c Hc) as (A1 & A2 & _). split; assumption.
Qed.
(** a read waiting for mi32.ardy is overwritten by the next one *)
Definition ex_am2 : list (am_in nat nat nat) :=
  [mk_ami (Some 1) None None true true false None; mk_ami (Some 2) None None true true false None; mk_ami (Some 2) None None true true true None;
   mk_ami None None None true true true None].
Lemma am_overwrite rp : flat_map axr1 (trace (am_step rp) (am_init 0 0) ex_am2) = [1; 2] /\
  flat_map mir1 (trace (am_step rp) (am_init 0 0) ex_am2) = [2; 2].
Proof. destruct rp; split; reflexivity. Qed.
(** a write whose data comes later is dropped, and gets a response *)
Definition ex_am3 : list (am_in nat nat nat) :=
  [mk_ami None (Some 1) None true true true None; mk_ami None None None true true true None; mk_ami None None (Some 5) true true true None;
   mk_ami None None (Some 5) true true true None].
Lemma am_wlost rp : flat_map axw1 (trace (am_step rp) (am_init 0 0) ex_am3) = [1] /\
  flat_map miw1 (trace (am_step rp) (am_init 0 0) ex_am3) = [] /\
  map (fun c => axo_b (snd c)) (trace (am_step rp) (am_init 0 0) ex_am3) = [false; true; false; false].
Proof. destruct rp; repeat split. Qed.

Lemma sw_law MAW WINDOW is : forall off, window_law MAW WINDOW off (trace (sw_step MAW WINDOW) off is).
Proof.
  induction is as [|i is IH]; intros off; [exact I|]. rewrite trace_cons. cbn [window_law].
  unfold sw_step at 1 2 3 4 5 6. cbn [snd so_ardy so_wr so_rd so_addr].
  destruct (N.eqb_spec (si_addr i) WINDOW) as [E|E], (si_wr i) eqn:Ew; cbn [andb orb negb];
    (split; [intros [S1 S2]|]; [|split; [intros S|split; intros S]]); try congruence; try (exfalso; apply S; split; congruence);
    try (destruct S; congruence).
  - rewrite orb_true_r. split; reflexivity.
  - unfold sw_step at 2. cbn [fst]. rewrite E, N.eqb_refl, Ew. apply IH.
  - rewrite orb_false_r. repeat split.
  - unfold sw_step at 2. cbn [fst]. rewrite Ew, andb_false_r. apply IH.
  - rewrite orb_false_r. repeat split.
  - unfold sw_step at 2. cbn [fst]. rewrite (proj2 (N.eqb_neq _ _) E). apply IH.
  - rewrite orb_false_r. repeat split.
  - unfold sw_step at 2. cbn [fst]. rewrite Ew, andb_false_r. apply IH.
Qed.
Definition ex_sw : list sw_in :=
  [mk_swi false true 16%N 256%N false; mk_swi true false 5%N 0%N true; mk_swi false true 3%N 7%N true].

Section Buff.
  Context {R D : Type}.
  Notation step := (bf_step (R := R) (D := D)).
  Definition b_ok (s : bf_st R D) : Prop := sk (bf_a s) = KLat /\ (occ (bf_a s) = true -> fst (fst (sdat (bf_a s))) || snd (fst (sdat (bf_a s))) = true).
  Definition b_cont (s : bf_st R D) : list (bool * bool * R) := if occ (bf_a s) then [sdat (bf_a s)] else [].
  Lemma bf_qstep s i : b_ok s -> b_ok (fst (step s i)) /\
    b_cont s ++ acc1 (bf_obs (i, snd (step s i))) = del1 (bf_obs (i, snd (step s i))) ++ b_cont (fst (step s i)).
  Proof.
    destruct s as [[k oc [[r w] x]] dl]. intros [Hk Ho]. cbn in Hk, Ho. subst k. destruct i as [ir iw iq ia idd].
    unfold b_ok, b_cont, acc1, del1, bf_obs, bf_step, stage_next, stage_rd. cbn.
    destruct oc; [specialize (Ho eq_refl)|clear Ho]; destruct ir, iw, ia; cbn; repeat split; intros; try reflexivity; try discriminate; try assumption;
      destruct r, w; cbn in *; try discriminate; reflexivity.
  Qed.
  Lemma bf_law n r0 is : queue_law 1 [] (map bf_obs (trace step (bf_init n r0) is)).
  Proof.
    destruct (queue_run step bf_obs b_ok b_cont bf_qstep (bf_init n r0) is) as [_ E]; [split; [reflexivity|discriminate]|].
    exists (b_cont (final step (bf_init n r0) is)). split; [exact E|]. unfold b_cont. destruct (occ _); cbn; lia.
  Qed.
  Lemma bf_stab n r0 is : out_stable (map bf_obs (trace step (bf_init n r0) is)).
  Proof.
    apply (stable_run step bf_obs b_ok b_cont bf_qstep); [|split; [reflexivity|discriminate]].
    intros s i j [Hk Ho] V E. destruct s as [[k oc [[r w] x]] dl]. cbn in Hk, Ho. subst k. destruct i as [ir iw iq ia idd].
    cbn in V, E. subst ia. destruct oc; [|discriminate]. cbn. destruct ir, iw; cbn; split; auto.
  Qed.
  (** the chain of data registers *)
  Lemma bf_data is : forall s, map (fun c => bo_d (snd c)) (trace step s is) = firstn (length is) (rev (bf_d s) ++ map bi_d is).
  Proof.
    induction is as [|i is IH]; intros s; [reflexivity|]. rewrite trace_cons. cbn [map length snd]. rewrite IH.
    unfold bf_step. destruct (sdat (bf_a s)) as [[rd wr] r]. cbn [snd fst bo_d bf_d].
    destruct (@exists_last _ (bi_d i :: bf_d s)) as (l & x & El); [discriminate|]. rewrite El, last_last, removelast_last.
    assert (Er : rev (bf_d s) ++ [bi_d i] = x :: rev l).
    { change (rev (bf_d s) ++ [bi_d i]) with (rev (bi_d i :: bf_d s)). rewrite El, rev_app_distr. reflexivity. }
    replace (rev (bf_d s) ++ bi_d i :: map bi_d is) with ((rev (bf_d s) ++ [bi_d i]) ++ map bi_d is) by (rewrite <- app_assoc; reflexivity).
    rewrite Er. reflexivity.
  Qed.
  Lemma rev_repeat {X} (x : X) n : rev (repeat x n) = repeat x n.
  Proof.
    induction n as [|n IH]; [reflexivity|]. cbn [repeat rev]. rewrite IH. clear IH.
    induction n as [|n IH]; [reflexivity|]. cbn [repeat app]. rewrite IH. reflexivity.
  Qed.
  Lemma bf_data0 n r0 is : map (fun c => bo_d (snd c)) (trace step (bf_init n r0) is) = firstn (length is) (repeat None n ++ map bi_d is).
  Proof. rewrite bf_data. unfold bf_init. cbn [bf_d]. rewrite rev_repeat. reflexivity. Qed.
End Buff.
Definition ex_bf : list (bf_in nat nat) :=
  [mk_bfi true false 1 true None; mk_bfi false true 2 false None; mk_bfi false true 2 true (Some 9); mk_bfi false false 0 true None;
   mk_bfi false false 0 true None].
