From Verif Require Import Base BaseFacts StreamSpec StreamFacts HsRegModel StreamNodeModel ToAxisModel ToAxisSpec TimerProofs.

Section W.
  Context {A S : Type} (step : S -> ta_in A -> S * ta_out A) (held : S -> list A) (P : S -> Prop).
  Hypothesis H1 : forall s i, P s -> P (fst (step s i)) /\ held s ++ acc1 (ta_obs (i, snd (step s i))) = map fst (del1 (ta_obs (i, snd (step s i)))) ++ held (fst (step s i)).
  Lemma words_run s h : P s -> P (final step s h) /\ held s ++ accepted (map ta_obs (trace step s h)) = map fst (delivered (map ta_obs (trace step s h))) ++ held (final step s h).
  Proof.
    intros HP. induction h as [|i h [IP IH]] using rev_ind; [split; [exact HP|cbn; apply app_nil_r]|].
    rewrite final_snoc, trace_snoc, map_app. cbn [map]. rewrite accepted_snoc, delivered_snoc, map_app. destruct (H1 (final step s h) i IP) as [HP' E]. split; [exact HP'|].
    rewrite app_assoc, IH, <- !app_assoc. f_equal. exact E.
  Qed.
End W.

Ltac stage_cases s := destruct s as [[[] [] ?] ?].
Definition held_stage {A} (r : stage A) : list A := if occ r then [sdat r] else [].
Definition klat {A} (r : stage A) : Prop := sk r = KLat.

Lemma time_words {A} t d0 (h : list (ta_in A)) : exists held, length held <= 1 /\
  accepted (map ta_obs (trace (ta_time_step t) (tt_init d0 t) h)) = map fst (delivered (map ta_obs (trace (ta_time_step t) (tt_init d0 t) h))) ++ held.
Proof.
  destruct (words_run (ta_time_step t) (fun s : tt_state A => held_stage (tt_r s)) (fun s : tt_state A => klat (tt_r s))) with (s := tt_init d0 t) (h := h) as [_ E]; [|reflexivity|].
  - intros [[k o d] c] [v x rd] Hk. unfold klat in Hk. cbn in Hk. subst k. unfold ta_time_step, stage_next, stage_rd, rd_of_master, vld_of_slave, ack_for_master, ack_for_slave, acc1, del1, ta_obs, held_stage, klat.
    cbn. destruct o, v, rd, (c =? 0); cbn; auto.
  - eexists. split; [|exact E]. unfold held_stage. destruct (occ _); cbn; lia.
Qed.
Lemma both_words {A} t n d0 (h : list (ta_in A)) : exists held, length held <= 1 /\
  accepted (map ta_obs (trace (ta_both_step t n) (tb_init d0 t) h)) = map fst (delivered (map ta_obs (trace (ta_both_step t n) (tb_init d0 t) h))) ++ held.
Proof.
  destruct (words_run (ta_both_step t n) (fun s : tb_state A => held_stage (tb_r s)) (fun s : tb_state A => klat (tb_r s))) with (s := tb_init d0 t) (h := h) as [_ E]; [|reflexivity|].
  - intros [[k o d] c f] [v x rd] Hk. unfold klat in Hk. cbn in Hk. subst k. unfold ta_both_step, stage_next, stage_rd, rd_of_master, vld_of_slave, ack_for_master, ack_for_slave, acc1, del1, ta_obs, held_stage, klat.
    cbn. destruct o, v, rd, (c =? 0); cbn; auto.
  - eexists. split; [|exact E]. unfold held_stage. destruct (occ _); cbn; lia.
Qed.

(** ** MAX_FRAME_WORDS only *)
Lemma max_run {A} n (h : list (ta_in A)) : 1 <= n ->
  let t := map ta_obs (trace (ta_max_step n) 0 h) in
  map fst (delivered t) = accepted t /\
  final (ta_max_step n) 0 h = length (delivered t) mod n /\
  forall k w, nth_error (delivered t) k = Some w -> snd w = ((k + 1) mod n =? 0).
Proof.
  intros Hn t. unfold t. clear t. induction h as [|[v d rd] h IH] using rev_ind.
  - cbn. split; [reflexivity|]. split; [symmetry; apply Nat.mod_0_l; lia|]. intros [|k] w; discriminate.
  - cbv zeta in IH. destruct IH as (I1 & I2 & I3). rewrite trace_snoc, map_app, final_snoc, I2. cbn [map]. rewrite accepted_snoc, delivered_snoc.
    set (dl := delivered _) in *. clearbody dl. set (ac := accepted _) in *. clearbody ac.
    unfold ta_max_step. cbn [fst snd ta_obs in_vld in_rd in_data out_vld out_rd out_data ti_vld ti_data ti_ready to_rd to_vld to_data to_last].
    unfold rd_of_master, vld_of_slave, ack_for_master, ack_for_slave, node_ack. cbn [masters slaves others firstn skipn map app sync_sig sig skip extra extra_list mask_skip all_true forallb flat_map ack1].
    rewrite !andb_true_r. rewrite map_app, I1. pose proof (mod_step (length dl) n ltac:(lia)) as Ms.
    pose proof (Nat.mod_upper_bound (length dl) n ltac:(lia)) as U.
    destruct v, rd; cbn [andb map fst]; rewrite ?app_nil_r; repeat split; auto.
    + rewrite app_length. cbn [length]. rewrite Ms. revert U. generalize (length dl mod n). intros r U. destruct (Nat.eqb_spec r (n - 1)) as [E|E]; [reflexivity|].
      apply winc_small. pose proof (log2ceil_ge n). lia.
    + intros k w Hk. destruct (le_lt_dec (length dl) k) as [L|L].
      * rewrite nth_error_app2 in Hk by exact L. destruct (k - length dl) as [|j] eqn:Ej; [|destruct j; discriminate]. injection Hk as <-. cbn [snd].
        replace k with (length dl) by lia. rewrite Ms. revert U. generalize (length dl mod n). intros r U. destruct (Nat.eqb_spec r (n - 1)) as [E|E]; [reflexivity|]. symmetry. apply Nat.eqb_neq. lia.
      * rewrite nth_error_app1 in Hk by exact L. apply I3. exact Hk.
Qed.

(** ** IN_TIMEOUT only: the held word leaves *)
Definition tt_ok {A} t (s : tt_state A) : Prop := klat (tt_r s) /\ tt_cntr s <= t - 1.
Lemma tt_ok_run {A} t d0 (h : list (ta_in A)) : 1 <= t -> tt_ok t (final (ta_time_step t) (tt_init d0 t) h).
Proof.
  intros Ht. induction h as [|[v d rd] h IH] using rev_ind; [split; [reflexivity|cbn; lia]|]. rewrite final_snoc. set (s := final _ _ h) in *. clearbody s.
  destruct s as [[k o x] c]. destruct IH as [I1 I2]. unfold klat in *. cbn in I1, I2. subst k. unfold ta_time_step, tt_ok, klat. cbn [fst tt_r tt_cntr ti_vld ti_data ti_ready]. split; [reflexivity|].
  destruct (Nat.eqb_spec c 0) as [->|Hc]; cbn [andb orb negb].
  - rewrite andb_false_r. destruct rd; lia.
  - destruct (negb v && _ && true); [|exact I2]. rewrite wdec_pos; [lia|lia|]. pose proof (log2ceil_ge t). lia.
Qed.

(** the delivered words of some cycles *)
Lemma delivered_In {A B} (t : list (hs_cycle A B)) c : In c t -> out_vld c = true -> out_rd c = true -> In (out_data c) (delivered t).
Proof.
  induction t as [|x t IH]; intros Hin Hv Hr; [destruct Hin|]. cbn [delivered]. destruct Hin as [->|Hin]; [rewrite Hv, Hr; left; reflexivity|].
  destruct (out_vld x && out_rd x); [right|]; apply IH; assumption.
Qed.
Lemma time_leaves {A} t (d : A) w : forall c k, c < k -> c < 2 ^ log2ceil t ->
  In (w, true) (delivered (map ta_obs (trace (ta_time_step t) (mk_tt (mk_stage KLat true w) c) (repeat (idle d) k)))).
Proof.
  induction c as [|c IH]; intros k Hk Hc; (destruct k as [|k]; [lia|]); cbn [repeat]; rewrite trace_cons; cbn [map delivered].
  - left. reflexivity.
  - assert (fst (ta_time_step t (mk_tt (mk_stage KLat true w) (S c)) (idle d)) = mk_tt (mk_stage KLat true w) c) as ->.
    { unfold ta_time_step, idle. cbn. rewrite wdec_pos by lia. f_equal; lia. }
    cbn. apply IH; lia.
Qed.
Lemma time_live {A} t d0 (h : list (ta_in A)) w d : 1 <= t ->
  let tr := map ta_obs (trace (ta_time_step t) (tt_init d0 t) h) in
  accepted tr = map fst (delivered tr) ++ [w] ->
  In (w, true) (delivered (map ta_obs (trace (ta_time_step t) (final (ta_time_step t) (tt_init d0 t) h) (repeat (idle d) t)))).
Proof.
  intros Ht tr Hw. unfold tr in Hw. pose proof (tt_ok_run t d0 h Ht) as [K1 K2].
  destruct (words_run (ta_time_step t) (fun s : tt_state A => held_stage (tt_r s)) (fun s : tt_state A => klat (tt_r s))) with (s := tt_init d0 t) (h := h) as [_ E]; [|reflexivity|].
  { intros [[k o x] c] [v y rd] Hk. unfold klat in Hk. cbn in Hk. subst k. unfold ta_time_step, stage_next, stage_rd, rd_of_master, vld_of_slave, ack_for_master, ack_for_slave, acc1, del1, ta_obs, held_stage, klat.
    cbn. destruct o, v, rd, (c =? 0); cbn; auto. }
  change (held_stage (tt_r (tt_init d0 t))) with (@nil A) in E. rewrite app_nil_l, Hw in E. apply app_inv_head in E.
  set (s := final _ _ h) in *. clearbody s. destruct s as [[k o x] c]. unfold klat in K1. cbn in K1, K2, E. subst k. unfold held_stage in E. cbn in E.
  destruct o; [|discriminate]. injection E as <-. pose proof (log2ceil_ge t). apply time_leaves; lia.
Qed.

(** ** both: frames have at most n words *)
Lemma open_snoc l b : open_len (l ++ [b]) = if b then 0 else open_len l + 1.
Proof. unfold open_len. rewrite fold_left_app. reflexivity. Qed.
Lemma both_frames {A} t n d0 (h : list (ta_in A)) : 1 <= n -> n - 1 < 2 ^ log2ceil (n - 1) ->
  let l := map snd (delivered (map ta_obs (trace (ta_both_step t n) (tb_init d0 t) h))) in
  klat (tb_r (final (ta_both_step t n) (tb_init d0 t) h)) /\ tb_fw (final (ta_both_step t n) (tb_init d0 t) h) = open_len l /\ forall k, open_len (firstn k l) < n.
Proof.
  intros Hn Hw l. unfold l. clear l. induction h as [|[v d rd] h IH] using rev_ind.
  - cbn. repeat split. intros [|k]; cbn; lia.
  - cbv zeta in IH. destruct IH as (K & I1 & I2). rewrite trace_snoc, map_app, final_snoc. cbn [map]. rewrite delivered_snoc, map_app.
    set (s := final _ _ h) in *. set (l := map snd _) in *. clearbody s l. destruct s as [[k o x] c f]. unfold klat in K. cbn in K, I1. subst k f.
    pose proof (I2 (length l)) as I3. rewrite firstn_all in I3.
    assert (forall b, (open_len (l ++ [b]) < n) -> forall k, open_len (firstn k (l ++ [b])) < n) as Pre.
    { intros b Hb k. destruct (le_lt_dec k (length l)) as [L|L].
      - rewrite firstn_app. replace (k - length l) with 0 by lia. cbn [firstn]. rewrite app_nil_r. apply I2.
      - rewrite firstn_all2; [exact Hb|rewrite app_length; cbn; lia]. }
    unfold ta_both_step. cbn [fst snd ta_obs out_vld out_rd out_data ti_vld ti_data ti_ready to_rd to_vld to_data to_last tb_r tb_cntr tb_fw occ sdat sk].
    unfold rd_of_master, vld_of_slave, ack_for_master, ack_for_slave, node_ack. cbn [masters slaves others firstn skipn map app sync_sig sig skip extra extra_list mask_skip all_true forallb flat_map ack1].
    rewrite !andb_true_r. split; [reflexivity|].
    set (cond := (c =? 0) || v && o). set (last := (c =? 0) || (open_len l =? n - 1)).
    destruct o, cond, rd; cbn [andb map app snd]; rewrite ?app_nil_r; try (split; [reflexivity|exact I2]).
    rewrite open_snoc. destruct last eqn:El; [split; [reflexivity|apply Pre; rewrite open_snoc; lia]|].
    assert (open_len l <> n - 1). { unfold last in El. apply orb_false_elim in El. destruct El as [_ El]. apply Nat.eqb_neq. exact El. }
    split; [apply winc_small; lia|]. apply Pre. rewrite open_snoc. lia.
Qed.
Lemma both_frames_le {A} t n d0 (h : list (ta_in A)) : 1 <= n -> n - 1 < 2 ^ log2ceil (n - 1) ->
  forall k, open_len (firstn k (map snd (delivered (map ta_obs (trace (ta_both_step t n) (tb_init d0 t) h))))) < n.
Proof. intros Hn Hw. apply (both_frames t n d0 h Hn Hw). Qed.

(** a full frame whose last word waits for ever *)
Definition ex_stuck : list (ta_in nat) := [mk_ti true 1 true; mk_ti true 2 true].
Lemma stuck_run n : trace (ta_both_step 4 2) (mk_tb (mk_stage KLat true 2) 3 1) (repeat (idle 0) n) = repeat (idle 0, mk_to false false 2 true) n.
Proof.
  induction n as [|n IH]; [reflexivity|]. cbn [repeat]. rewrite trace_cons.
  change (ta_both_step 4 2 (mk_tb (mk_stage KLat true 2) 3 1) (idle 0)) with (mk_tb (mk_stage KLat true 2) 3 1, mk_to false false 2 true).
  cbn [fst snd]. rewrite IH. reflexivity.
Qed.
