From Verif Require Import Base BaseFacts StreamSpec StreamFacts HsRegModel ResizerModel ResizerSpec.

Section P.
  Context {A : Type} (factor : nat) (HF : 2 <= factor).

  Lemma cnt_inc c : c < factor - 1 -> winc (log2ceil (factor + 1)) c = c + 1.
  Proof. intros H. apply winc_small. pose proof (log2ceil_ge (factor + 1)). lia. Qed.

  Definition up_ok (s : up_st A) := u_cnt s < factor.
  Definition up_cont (s : up_st A) : list A := map (u_regs s) (seq 0 (u_cnt s)).

  Lemma map_upd_out (m : nat -> A) k v l : (forall j, In j l -> j <> k) -> map (upd m k v) l = map m l.
  Proof. intros H. apply map_ext_in. intros j Hj. apply upd_neq. auto. Qed.

  Lemma up_step_law s i : up_ok s -> no_stall (i, snd (up_step factor s i)) ->
    up_ok (fst (up_step factor s i)) /\
    up_cont s ++ flat_map (fun a => [a]) (acc1 (up_obs (i, snd (up_step factor s i)))) =
      flat_map (fun b => b) (del1 (up_obs (i, snd (up_step factor s i)))) ++ up_cont (fst (up_step factor s i)).
  Proof.
    destruct s as [c m], i as [v d r]. unfold up_ok, no_stall, up_cont, up_step, acc1, del1, up_obs.
    cbn [u_cnt u_regs ui_vld ui_data ui_rd fst snd uo_vld uo_rd uo_data in_vld in_rd in_data out_vld out_rd out_data].
    intros Hc Hs. destruct (Nat.eqb_spec c factor) as [->|_]; [lia|]. cbn [negb orb].
    destruct (Nat.eqb_spec c (factor - 1)) as [->|Hne].
    - rewrite Nat.ltb_irrefl, andb_false_r. destruct v.
      + rewrite (Hs eq_refl). cbn [andb flat_map app]. split; [lia|]. rewrite !app_nil_r. reflexivity.
      + cbn [andb flat_map app]. split; [lia|]. apply app_nil_r.
    - cbn [andb]. destruct (Nat.ltb_spec c (factor - 1)) as [L|L]; [|lia]. destruct v; cbn [andb flat_map app].
      + rewrite cnt_inc by exact L. split; [lia|]. rewrite Nat.add_1_r, seq_S, map_app. cbn [map].
        rewrite upd_eq, map_upd_out; [reflexivity|]. intros j Hj. apply in_seq in Hj. lia.
      + split; [lia|]. apply app_nil_r.
  Qed.

  Lemma flat_sing {X} (l : list X) : flat_map (fun a => [a]) l = l.
  Proof. induction l; simpl; congruence. Qed.

  Lemma flat_concat {X} (l : list (list X)) : flat_map (fun a => a) l = concat l.
  Proof. induction l; simpl; congruence. Qed.

  Lemma up_words s is (w : list A) : In w (delivered (map up_obs (trace (up_step factor) s is))) -> length w = factor.
  Proof.
    revert s. induction is as [|i is IH]; intros s; [intros []|].
    rewrite trace_cons, map_cons, delivered_cons, in_app_iff. intros [H|H]; [|eapply IH, H].
    destruct (out_vld _ && out_rd _); [|destruct H]. destruct H as [<-|[]].
    cbn. rewrite app_length, map_length, seq_length. simpl. lia.
  Qed.

  Lemma up_packs (r0 : nat -> A) is :
    let t := trace (up_step factor) (up_init r0) is in
    (forall c, In c t -> no_stall c) -> packs factor (map up_obs t).
  Proof.
    intros t Hn. split; [intros w; apply up_words|].
    destruct (conv_run (up_step factor) up_obs (fun a => [a]) (fun b => b) up_ok no_stall up_cont up_step_law
                (up_init r0) is) as [H1 H2]; [unfold up_ok; simpl; lia|exact Hn|].
    fold t in H2. rewrite flat_sing in H2. cbn [up_cont up_init u_cnt seq map app] in H2.
    exists (up_cont (final (up_step factor) (up_init r0) is)). split.
    - rewrite H2, flat_concat. reflexivity.
    - unfold up_cont. rewrite map_length, seq_length. exact H1.
  Qed.

  (** downscale *)
  Variable x : A.
  Definition dn_ok (s : dn_st A) :=
    sk (d_reg s) = KLat /\ d_cnt s < factor /\
    (occ (d_reg s) = false -> d_cnt s = 0) /\
    (occ (d_reg s) = true -> length (sdat (d_reg s)) = factor).
  Definition dn_cont (s : dn_st A) : list A :=
    if occ (d_reg s) then skipn (d_cnt s) (sdat (d_reg s)) else [].
  (** offered words have the width of [factor] parts *)
  Definition wide (c : dn_in A * dn_out A) : Prop := length (di_data (fst c)) = factor.

  Lemma skipn_cons k (l : list A) : k < length l -> skipn k l = nth k l x :: skipn (k + 1) l.
  Proof.
    revert l. induction k as [|k IH]; intros l H; destruct l as [|a l]; simpl in H; try lia; [reflexivity|].
    simpl. apply IH. lia.
  Qed.

  Lemma dn_step_law s i : dn_ok s -> wide (i, snd (dn_step x factor s i)) ->
    dn_ok (fst (dn_step x factor s i)) /\
    dn_cont s ++ flat_map (fun a => a) (acc1 (dn_obs (i, snd (dn_step x factor s i)))) =
      flat_map (fun b => [b]) (del1 (dn_obs (i, snd (dn_step x factor s i)))) ++ dn_cont (fst (dn_step x factor s i)).
  Proof.
    destruct s as [c [kd oc wd]], i as [v d r]. unfold dn_ok, wide, dn_cont, dn_step, acc1, del1, dn_obs, stage_next, stage_rd.
    cbn [d_cnt d_reg di_vld di_data di_rd fst snd do_vld do_rd do_data in_vld in_rd in_data out_vld out_rd out_data sk occ sdat].
    intros [-> [Hc [H0 H1]]] Hw. destruct oc.
    - specialize (H1 eq_refl). destruct (Nat.eqb_spec c (factor - 1)) as [->|Hne]; destruct r; cbn [andb negb].
      + rewrite (skipn_cons (factor - 1) wd) by lia.
        rewrite (skipn_all2 wd) by lia.
        destruct v; cbn [andb negb occ sdat flat_map app sk]; (split; [repeat split; auto; try lia; discriminate|]).
        * rewrite app_nil_r. reflexivity.
        * reflexivity.
      + rewrite !andb_false_r. cbn [flat_map app occ sdat sk]. split; [repeat split; auto; discriminate|].
        apply app_nil_r.
      + rewrite !andb_false_r. cbn [andb negb flat_map app occ sdat sk].
        assert (c < factor - 1) as L by lia. rewrite (cnt_inc c L). split; [repeat split; auto; try lia; discriminate|].
        rewrite app_nil_r. rewrite (skipn_cons c wd) by lia. reflexivity.
      + rewrite !andb_false_r. cbn [andb negb flat_map app occ sdat sk]. split; [repeat split; auto; discriminate|].
        apply app_nil_r.
    - rewrite (H0 eq_refl). destruct v; cbn [andb negb flat_map app occ sdat sk].
      + split; [repeat split; auto; try lia; discriminate|]. rewrite app_nil_r. reflexivity.
      + split; [repeat split; auto; try lia; discriminate|]. reflexivity.
  Qed.

  Lemma dn_unpacks d0 is : (forall i, In i is -> length (di_data i) = factor) ->
    unpacks factor (map dn_obs (trace (dn_step x factor) (dn_init d0) is)).
  Proof.
    intros Hw.
    destruct (conv_run (dn_step x factor) dn_obs (fun a => a) (fun b => [b]) dn_ok wide dn_cont dn_step_law
                (dn_init d0) is) as [H1 H2].
    - repeat split; simpl; auto; try lia; discriminate.
    - intros c Hc. apply Hw. unfold trace in Hc. destruct c as [i o]. apply in_combine_l in Hc. exact Hc.
    - rewrite flat_sing in H2. cbn [dn_cont dn_init d_reg occ app] in H2.
      exists (dn_cont (final (dn_step x factor) (dn_init d0) is)). split.
      + rewrite <- H2, flat_concat. reflexivity.
      + destruct H1 as [_ [H3 [_ H4]]]. unfold dn_cont. destruct (occ _); [|simpl; lia].
        rewrite skipn_length, H4 by reflexivity. lia.
  Qed.

  Lemma dn_stable1 s i j : do_vld (snd (dn_step x factor s i)) = true -> di_rd i = false -> sk (d_reg s) = KLat ->
    let o' := snd (dn_step x factor (fst (dn_step x factor s i)) j) in
    do_vld o' = true /\ do_data o' = do_data (snd (dn_step x factor s i)).
  Proof.
    destruct s as [c [kd oc wd]], i as [v d r]. unfold dn_step, stage_next. cbn. intros -> -> ->.
    rewrite !andb_false_r. cbn. auto.
  Qed.

  Lemma dn_stable d0 is : out_stable (map dn_obs (trace (dn_step x factor) (dn_init d0) is)).
  Proof.
    assert (forall s, sk (d_reg s) = KLat -> out_stable (map dn_obs (trace (dn_step x factor) s is))) as H.
    { induction is as [|i is IH]; intros s Hs; [exact Logic.I|].
      assert (sk (d_reg (fst (dn_step x factor s i))) = KLat) as Hs'.
      { destruct s as [c [kd oc wd]]. cbn in *. rewrite Hs. reflexivity. }
      specialize (IH _ Hs'). rewrite trace_cons, map_cons.
      destruct is as [|j is]; [exact Logic.I|]. rewrite trace_cons, map_cons in *.
      split; [|exact IH]. intros Hv Hr. cbn in Hr. apply dn_stable1; auto. }
    apply H. reflexivity.
  Qed.
End P.
