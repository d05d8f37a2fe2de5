(** Proofs about HsSlrCrossing. *)
From Verif Require Import Base BaseFacts StreamSpec StreamFacts SlrModel SlrSpec.

Section Slr.
  Context {A : Type}.
  Notation step := (slr_step (A := A)).
  (** places between the input register and the output, first to leave first *)
  Definition places (s : slr A) : list (bool * A) :=
    let m := x_sh s in
    (x_vld s, x_data s) :: match x_addr s with 0 => [q0 m] | 1 => [q1 m; q0 m] | 2 => [q2 m; q1 m; q0 m] | _ => [q3 m; q2 m; q1 m; q0 m] end
      ++ (if x_ce s then [(g_vld s, g_data s)] else []).
  Definition words (l : list (bool * A)) : list A := flat_map (fun p => if fst p : bool then [snd p] else []) l.
  Definition Ok (s : slr A) : Prop :=
    x_addr s = Nat.b2n (negb (x_rdy s)) + Nat.b2n (negb (x_cei s)) + Nat.b2n (negb (x_ce s)).
  Definition Inv (s : slr A) : Prop := Ok s /\ g_rd s = x_cei s.

  Lemma places_step s i : Ok s ->
    Ok (fst (step s i)) /\ g_rd (fst (step s i)) = x_cei (fst (step s i)) /\
    places (fst (step s i)) = (if out_ce s (xi_rd i) then tl (places s) else places s) ++ (if x_cei s then [(xi_vld i, xi_data i)] else []).
  Proof.
    destruct s as [gd gr gv xv xd r ci c ad [[] [] [] []]], i as [iv id ir]. unfold Ok. cbn [x_addr x_rdy x_cei x_ce]. intros ->.
    split; [|split; [reflexivity|]].
    - unfold slr_step, out_ce. cbn. destruct r, ci, c, ir, xv; reflexivity.
    - unfold slr_step, out_ce, places, sh_in, sh_out. destruct r, ci, c, ir, xv; reflexivity.
  Qed.

  Lemma places_len s : Ok s -> length (places s) <= 5.
  Proof. intros H. unfold places. rewrite H. destruct (x_rdy s), (x_cei s), (x_ce s); cbn; lia. Qed.

  Lemma words_app a b : words (a ++ b) = words a ++ words b. Proof. apply flat_map_app. Qed.
  Lemma words_len l : length (words l) <= length l.
  Proof. unfold words. induction l as [|[[] x] l IH]; cbn [flat_map fst app length] in *; lia. Qed.

  Lemma run_inv s is : Inv s ->
    Inv (final step s is) /\
    words (places s) ++ accepted (map slr_obs (trace step s is)) = delivered (map slr_obs (trace step s is)) ++ words (places (final step s is)).
  Proof.
    intros H. revert s H. induction is as [|i is IH]; intros s [H1 H2].
    - cbn. rewrite app_nil_r. split; [split; assumption|reflexivity].
    - destruct (places_step s i H1) as (K1 & K2 & K3). destruct (IH (fst (step s i)) (conj K1 K2)) as [I E].
      rewrite final_cons, trace_cons. cbn [map]. rewrite accepted_cons, delivered_cons. split; [exact I|].
      rewrite <- app_assoc, <- E, K3, words_app, !app_assoc. f_equal. cbn [slr_obs in_vld in_rd in_data out_vld out_rd out_data fst snd].
      cbn [slr_step snd xo_rd xo_vld xo_data]. rewrite H2.
      unfold out_ce, places. destruct (x_vld s), (xi_rd i), (xi_vld i), (x_cei s); cbn; rewrite <- ?app_assoc, ?app_nil_r; reflexivity.
  Qed.

  (** what comes out of any run after reset *)
  Lemma slr_exact a b c m1 m2 m3 is :
    exists inside, first_word is ++ accepted (map slr_obs (trace step (slr_init a b c m1 m2 m3) is)) =
                   delivered (map slr_obs (trace step (slr_init a b c m1 m2 m3) is)) ++ inside /\ length inside <= 5.
  Proof.
    destruct is as [|i is]; [exists []; split; [reflexivity|cbn; lia]|].
    set (s0 := slr_init a b c m1 m2 m3).
    assert (O : Ok s0) by reflexivity. destruct (places_step s0 i O) as (K1 & K2 & K3).
    destruct (run_inv (fst (step s0 i)) is (conj K1 K2)) as [[I _] E].
    exists (words (places (final step (fst (step s0 i)) is))). split.
    - rewrite trace_cons. cbn [map]. rewrite accepted_cons, delivered_cons.
      cbn [slr_obs in_vld in_rd in_data out_vld out_rd out_data fst snd first_word].
      change (xo_rd (snd (step s0 i))) with false. change (xo_vld (snd (step s0 i))) with false. rewrite andb_false_r. cbn [andb app].
      rewrite <- E. f_equal. rewrite K3. unfold s0, slr_init, out_ce, places. cbn. destruct (xi_rd i), (xi_vld i); reflexivity.
    - pose proof (places_len _ I). pose proof (words_len (places (final step (fst (step s0 i)) is))). lia.
  Qed.

  Lemma slr_queue a b c m1 m2 m3 is : first_word is = [] -> queue_law 5 [] (map slr_obs (trace step (slr_init a b c m1 m2 m3) is)).
  Proof. intros H. pose proof (slr_exact a b c m1 m2 m3 is) as E. rewrite H in E. exact E. Qed.

  Lemma slr_stable s is : out_stable (map slr_obs (trace step s is)).
  Proof.
    revert s. induction is as [|i is IH]; intros s; [exact I|]. rewrite trace_cons. cbn [map].
    destruct is as [|j is]; [exact I|]. specialize (IH (fst (step s i))). rewrite trace_cons in *. cbn [map] in *. split; [|exact IH].
    cbn [slr_obs out_vld out_rd out_data fst snd]. unfold slr_step, out_ce. cbn. intros -> ->. split; reflexivity.
  Qed.

  Lemma drain s js : Ok s -> (forall j, In j js -> xi_rd j = true) ->
    exists more, delivered (map slr_obs (trace step s js)) = words (firstn (length js) (places s)) ++ more.
  Proof.
    revert s. induction js as [|j js IH]; intros s H1 Hj; [exists []; reflexivity|].
    destruct (places_step s j H1) as (K1 & K2 & K3).
    destruct (IH (fst (step s j)) K1) as [more E]; [intros; apply Hj; right; assumption|].
    rewrite trace_cons. cbn [map]. rewrite delivered_cons, E, K3.
    unfold out_ce. rewrite (Hj j) by (left; reflexivity). cbn [orb].
    cbn [slr_obs out_vld out_rd out_data fst snd]. rewrite (Hj j) by (left; reflexivity). rewrite andb_true_r.
    cbn [length]. rewrite firstn_app, words_app, <- app_assoc.
    assert (E0 : exists l, places s = (x_vld s, x_data s) :: l) by (eexists; reflexivity). destruct E0 as [l ->].
    cbn [slr_step snd xo_vld xo_data tl firstn]. change (words ((x_vld s, x_data s) :: ?r)) with ((if x_vld s then [x_data s] else []) ++ words r).
    eexists. rewrite <- app_assoc. reflexivity.
  Qed.

  Lemma ok_run s is : Ok s -> Ok (final step s is).
  Proof.
    intros H. apply (trace_ind step (fun s _ => Ok s)); [exact H|]. intros s' t i K. apply places_step; exact K.
  Qed.

  Lemma slr_drain a b c m1 m2 m3 is js : 5 <= length js -> (forall j, In j js -> xi_rd j = true) ->
    let t k := map slr_obs (trace step (slr_init a b c m1 m2 m3) k) in
    exists more, delivered (t (is ++ js)) = (first_word is ++ accepted (t is)) ++ more.
  Proof.
    intros Hl Hj t. unfold t. clear t. set (s0 := slr_init a b c m1 m2 m3).
    rewrite trace_app, map_app, delivered_app.
    assert (O : Ok (final step s0 is)) by (apply ok_run; reflexivity).
    destruct (drain _ js O Hj) as [more E]. exists more. rewrite E, app_assoc. f_equal.
    rewrite firstn_all2 by (pose proof (places_len _ O); lia).
    destruct is as [|i is]; [reflexivity|].
    assert (O0 : Ok s0) by reflexivity. destruct (places_step s0 i O0) as (K1 & K2 & K3).
    destruct (run_inv (fst (step s0 i)) is (conj K1 K2)) as [_ E'].
    rewrite final_cons, trace_cons. cbn [map]. rewrite accepted_cons, delivered_cons.
    cbn [slr_obs in_vld in_rd in_data out_vld out_rd out_data fst snd first_word].
    change (xo_rd (snd (step s0 i))) with false. change (xo_vld (snd (step s0 i))) with false. rewrite andb_false_r. cbn [andb app].
    rewrite <- E'. f_equal. rewrite K3. unfold s0, slr_init, out_ce, places. cbn. destruct (xi_rd i), (xi_vld i); reflexivity.
  Qed.

  Lemma slr_ready s i1 i2 i3 : let s1 := fst (step s i1) in let s2 := fst (step s1 i2) in
    xo_rd (snd (step s2 i3)) = xi_rd i1 || negb (xo_vld (snd (step s i1))).
  Proof. reflexivity. Qed.
End Slr.
