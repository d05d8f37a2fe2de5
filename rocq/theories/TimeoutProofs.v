From Coq Require Import Lia.
From Verif Require Import Base BaseFacts TimeoutModel TimeoutSpec.

Section R.
  Context {P : Type}.
  Variable T : nat.
  Hypothesis HT : to_ok T = true.

  Lemma T_ok : 2 <= T /\ T - 1 < 2 ^ to_w T.
  Proof. unfold to_ok in HT. apply andb_prop in HT. destruct HT as [A B]. apply Nat.ltb_lt in A, B. lia. Qed.

  Lemma dec_pos k : 0 < k -> k <= T - 1 -> wdec (to_w T) k = k - 1.
  Proof.
    intros. unfold wdec, wrap. pose proof T_ok. replace (k + 2 ^ to_w T - 1) with (k - 1 + 1 * 2 ^ to_w T) by lia.
    rewrite Nat.mod_add by lia. apply Nat.mod_small. lia.
  Qed.

  (** counting down to the timeout *)
  Lemma tor_count (js : list (to_in P)) : forall s, t_pend s = true -> length js <= t_timer s -> t_timer s <= T - 1 ->
    Forall passes (trace (tor_step T) s js) /\
    final (tor_step T) s js = mk_to true (t_timer s - length js) (t_id s).
  Proof.
    induction js as [|j js IH]; intros s Hp Hl Ht.
    - split; [constructor|]. cbn [length]. rewrite Nat.sub_0_r. destruct s; cbn in *; subst; reflexivity.
    - cbn [length] in Hl. rewrite trace_cons, final_cons.
      assert (E : tor_step T s j = (mk_to true (t_timer s - 1) (t_id s), mk_too (match ti_rsp j with Some (id, p) => Some (SlaveRsp id p) | None => None end) (ti_rd j))).
      { unfold tor_step, to_o. rewrite Hp. destruct (Nat.eqb_spec (t_timer s) 0); [lia|]. cbn [andb negb].
        rewrite dec_pos by lia. reflexivity. }
      rewrite E. cbn [fst snd]. destruct (IH (mk_to true (t_timer s - 1) (t_id s)) eq_refl) as [F1 F2]; cbn [t_timer]; [lia|lia|].
      split; [constructor; [split; reflexivity|exact F1]|]. rewrite F2. cbn [t_timer t_id length]. f_equal. lia.
  Qed.
  Lemma tow_count (js : list (to_in P)) : forall s, t_pend s = true -> length js <= t_timer s -> t_timer s <= T - 1 ->
    Forall (fun j => ti_ida j = false) js ->
    Forall passes (trace (tow_step T) s js) /\
    final (tow_step T) s js = mk_to true (t_timer s - length js) (t_id s).
  Proof.
    induction js as [|j js IH]; intros s Hp Hl Ht Hi.
    - split; [constructor|]. cbn [length]. rewrite Nat.sub_0_r. destruct s; cbn in *; subst; reflexivity.
    - cbn [length] in Hl. rewrite trace_cons, final_cons. inversion Hi as [|? ? Hj Hjs]; subst.
      assert (E : tow_step T s j = (mk_to true (t_timer s - 1) (t_id s), mk_too (match ti_rsp j with Some (id, p) => Some (SlaveRsp id p) | None => None end) (ti_rd j))).
      { unfold tow_step, to_o. rewrite Hp, Hj. destruct (Nat.eqb_spec (t_timer s) 0); [lia|]. cbn [andb negb].
        rewrite dec_pos by lia. reflexivity. }
      rewrite E. cbn [fst snd]. destruct (IH (mk_to true (t_timer s - 1) (t_id s)) eq_refl) as [F1 F2]; cbn [t_timer]; [lia|lia|exact Hjs|].
      split; [constructor; [split; reflexivity|exact F1]|]. rewrite F2. cbn [t_timer t_id length]. f_equal. lia.
  Qed.

  Lemma tor_timeout s i (js : list (to_in P)) (k : to_in P) : t_pend s = false -> ti_start i = true -> ti_rsp i = None -> length js = T - 1 ->
    Forall passes (trace (tor_step T) s (i :: js)) /\
    snd (tor_step T (final (tor_step T) s (i :: js)) k) = mk_too (Some (TimeoutRsp (ti_id i))) true /\
    t_pend (fst (tor_step T (final (tor_step T) s (i :: js)) k)) = false.
  Proof.
    intros Hp Hs Hr Hl. rewrite trace_cons, final_cons.
    assert (E : tor_step T s i = (mk_to true (T - 1) (ti_id i), mk_too None (ti_rd i))).
    { unfold tor_step, to_o. rewrite Hp, Hs, Hr. reflexivity. }
    rewrite E. cbn [fst snd]. destruct (tor_count js (mk_to true (T - 1) (ti_id i)) eq_refl) as [F1 F2]; cbn [t_timer]; [lia|lia|].
    split; [constructor; [split; cbn; [reflexivity|rewrite Hr; reflexivity]|exact F1]|].
    rewrite F2. cbn [t_timer t_id]. replace (T - 1 - length js) with 0 by lia. split; reflexivity.
  Qed.
  Lemma tow_timeout s i (js : list (to_in P)) (k : to_in P) : t_pend s = false -> ti_start i = true -> ti_rsp i = None -> length js = T - 1 ->
    Forall (fun j => ti_ida j = false) js ->
    Forall passes (trace (tow_step T) s (i :: js)) /\
    snd (tow_step T (final (tow_step T) s (i :: js)) k) = mk_too (Some (TimeoutRsp (if ti_ida i then ti_id i else t_id s))) true /\
    t_pend (fst (tow_step T (final (tow_step T) s (i :: js)) k)) = false.
  Proof.
    intros Hp Hs Hr Hl Hj. rewrite trace_cons, final_cons. set (id := if ti_ida i then ti_id i else t_id s).
    assert (E : tow_step T s i = (mk_to true (T - 1) id, mk_too None (ti_rd i))).
    { unfold tow_step, to_o. rewrite Hp, Hs, Hr. reflexivity. }
    rewrite E. cbn [fst snd]. destruct (tow_count js (mk_to true (T - 1) id) eq_refl) as [F1 F2]; cbn [t_timer]; [lia|lia|exact Hj|].
    split; [constructor; [split; cbn; [reflexivity|rewrite Hr; reflexivity]|exact F1]|].
    rewrite F2. cbn [t_timer t_id]. replace (T - 1 - length js) with 0 by lia. split; reflexivity.
  Qed.
End R.

(** TIMEOUT = 4: the slave answers the request in the next cycle, the answer is taken; then the timeout fires *)
Definition ex_to : list (to_in nat) :=
  [mk_toi true true 7 None true; mk_toi false false 0 (Some (7, 42)) true; mk_toi false false 0 None true;
   mk_toi false false 0 None true; mk_toi false false 0 None true; mk_toi false false 0 None true].
Definition ex_to2 : list (to_in nat) := mk_toi true true 7 None true :: repeat (mk_toi false false 0 None false) 5.

Lemma ex_to_obeys (step : nat -> to_st -> to_in nat -> to_st * to_out nat) : step = tor_step \/ step = tow_step ->
  slave_obeys (P:=nat) (trace (step 4) (to_init 4 0) ex_to).
Proof.
  intros Hs p c q E Hr. destruct Hs as [-> | ->]; vm_compute in E;
    (destruct p as [|p0 [|p1 [|p2 [|p3 [|p4 [|p5 p]]]]]]; cbn [app] in E; inversion E; subst;
     first [exfalso; apply Hr; reflexivity|vm_compute; lia|destruct p; discriminate]).
Qed.
Lemma tor_bad : let t := trace (tor_step 4) (to_init 4 0) ex_to in
  slave_obeys t /\ n_req t = 1 /\ n_slave t = 1 /\ n_rsp t = 2.
Proof. split; [apply (ex_to_obeys tor_step); left; reflexivity|]. repeat split. Qed.
Lemma tow_bad : let t := trace (tow_step 4) (to_init 4 0) ex_to in
  slave_obeys t /\ n_req t = 1 /\ n_slave t = 1 /\ n_rsp t = 2.
Proof. split; [apply (ex_to_obeys tow_step); right; reflexivity|]. repeat split. Qed.
Lemma tor_count_refuted : exists is : list (to_in nat), slave_obeys (trace (tor_step 4) (to_init 4 0) is) /\
  n_req (trace (tor_step 4) (to_init 4 0) is) < n_rsp (trace (tor_step 4) (to_init 4 0) is).
Proof. exists ex_to. split; [apply tor_bad|]. vm_compute. lia. Qed.
Lemma tow_count_refuted : exists is : list (to_in nat), slave_obeys (trace (tow_step 4) (to_init 4 0) is) /\
  n_req (trace (tow_step 4) (to_init 4 0) is) < n_rsp (trace (tow_step 4) (to_init 4 0) is).
Proof. exists ex_to. split; [apply tow_bad|]. vm_compute. lia. Qed.
Lemma to_stable_refuted : exists is : list (to_in nat), (forall c, In c is -> ti_rsp c = None) /\
  ~ rsp_stable (trace (tor_step 4) (to_init 4 0) is) /\ n_rsp (trace (tor_step 4) (to_init 4 0) is) = 0.
Proof.
  exists ex_to2. split; [|split; [|reflexivity]].
  - intros c Hc. unfold ex_to2 in Hc. cbn [repeat In] in Hc. repeat (destruct Hc as [<-|Hc]; [reflexivity|]). destruct Hc.
  - intros H. set (t := trace (tor_step 4) (to_init 4 0) ex_to2) in H.
    specialize (H (firstn 4 t) (mk_toi false false 0 None false, mk_too (Some (TimeoutRsp 7)) true)
      (mk_toi false false 0 None false, mk_too None false) [] (TimeoutRsp 7) eq_refl eq_refl eq_refl). discriminate H.
Qed.
