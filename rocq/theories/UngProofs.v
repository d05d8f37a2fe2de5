From Coq Require Import Lia.
From Verif Require Import Base BaseFacts UngModel UngSpec.

Section P.
  Variables k rb : nat.
  Hypothesis Hk : 1 <= k.
  Notation step := (ng_step k rb).
  Definition nxt (s : ng_st) (i : line) : ng_st := fst (step s i).
  Lemma pow5 : forall n, 2 ^ n mod 5 <> 0.
  Proof.
    intros n. assert (H : forall n, 2 ^ n mod 5 = 1 \/ 2 ^ n mod 5 = 2 \/ 2 ^ n mod 5 = 3 \/ 2 ^ n mod 5 = 4).
    { clear n. induction n; [left; reflexivity|]. rewrite Nat.pow_succ_r'. rewrite <- Nat.mul_mod_idemp_r by discriminate.
      destruct IHn as [E|[E|[E|E]]]; rewrite E; cbn; auto. }
    specialize (H n). lia.
  Qed.
  Definition mask := 2 ^ log2ceil (hs_reset_time k) - 1.
  Lemma mask_large : 10 * k + 1 <= mask.
  Proof.
    unfold mask, hs_reset_time, detach_time. replace (k + 9 * k) with (10 * k) by lia. unfold log2ceil. destruct (Nat.leb_spec (10 * k) 1); [lia|].
    pose proof (Nat.log2_log2_up_spec (10 * k) ltac:(lia)) as (_ & H2). set (w := Nat.log2_up (10 * k)) in *.
    assert (10 * k <> 2 ^ w). { intros E. apply (pow5 w). rewrite <- E. replace (10 * k) with (2 * k * 5) by lia. apply Nat.mod_mul. discriminate. }
    destruct w as [|w]; [cbn in H2; lia|]. rewrite Nat.pow_succ_r' in *. lia.
  Qed.
  Definition at_ (s : ng_st) (x : ng_st_t) (t : nat) : Prop := n_st s = x /\ n_time s = t.
  Ltac un := unfold at_, nxt, ng_step, time_next, st_next, cnt_next, is_wait, chirpk_time, attach_fs_time, detach_time in *; cbn [fst n_st n_time n_cnt n_last] in *.
  Lemma inc_time : forall t, t <= 10 * k -> (t =? 2 ^ log2ceil (hs_reset_time k) - 1) = false.
  Proof. intros t H. pose proof mask_large. unfold mask in *. apply Nat.eqb_neq. lia. Qed.
  Lemma idle_stay : forall s i t, at_ s N_IDLE t -> t <= k -> at_ (nxt s i) N_IDLE (t + 1).
  Proof.
    intros s i t (H1 & H2) H. un. rewrite H1, H2. destruct (Nat.ltb_spec k t); [lia|]. cbn [negb andb]. rewrite inc_time by lia. auto.
  Qed.
  Lemma idle_go : forall s i, at_ s N_IDLE (k + 1) -> at_ (nxt s i) N_WAIT_RST 0.
  Proof. intros s i (H1 & H2). un. rewrite H1, H2. destruct (Nat.ltb_spec k (k + 1)); [|lia]. auto. Qed.
  Lemma wait_stay : forall s t, at_ s N_WAIT_RST t -> t <= 4 * k -> at_ (nxt s SE0) N_WAIT_RST (t + 1).
  Proof.
    intros s t (H1 & H2) H. un. rewrite H1, H2. destruct (Nat.ltb_spec (k + 3 * k) t); [lia|]. cbn [negb andb line_eqb]. rewrite inc_time by lia. auto.
  Qed.
  Lemma wait_zero : forall s t i, at_ s N_WAIT_RST t -> t <= 4 * k -> i <> SE0 -> at_ (nxt s i) N_WAIT_RST 0.
  Proof.
    intros s t i (H1 & H2) H Hi. un. rewrite H1, H2. destruct (Nat.ltb_spec (k + 3 * k) t); [lia|]. destruct i; [congruence|..]; cbn [negb andb line_eqb]; auto.
  Qed.
  Lemma wait_go : forall s, at_ s N_WAIT_RST (4 * k + 1) -> at_ (nxt s SE0) N_SEND_CHIRP_K (4 * k + 2).
  Proof.
    intros s (H1 & H2). un. rewrite H1, H2. destruct (Nat.ltb_spec (k + 3 * k) (4 * k + 1)); [|lia]. cbn [negb andb line_eqb]. rewrite inc_time by lia. split; [reflexivity|lia].
  Qed.
  Lemma send_stay : forall s i t, at_ s N_SEND_CHIRP_K t -> t <= 5 * k -> at_ (nxt s i) N_SEND_CHIRP_K (t + 1).
  Proof.
    intros s i t (H1 & H2) H. un. rewrite H1, H2. destruct (Nat.ltb_spec (k + 3 * k + k) t); [lia|]. cbn [negb andb]. rewrite inc_time by lia. auto.
  Qed.
  Lemma send_go : forall s i, at_ s N_SEND_CHIRP_K (5 * k + 1) -> at_ (nxt s i) N_WAIT_CHIRP_JK (5 * k + 2) /\ n_cnt (nxt s i) = 0 /\ n_last (nxt s i) = i.
  Proof.
    intros s i (H1 & H2). un. rewrite H1, H2. destruct (Nat.ltb_spec (k + 3 * k + k) (5 * k + 1)); [|lia]. cbn [negb andb].
    destruct (Nat.le_gt_cases (5 * k + 1) (10 * k)); [|lia]. rewrite inc_time by lia. repeat split; lia.
  Qed.
  Definition ch (s : ng_st) (i : line) : nat := if line_eqb (n_last s) i then 0 else 1.
  Lemma jk_stay : forall s i t, at_ s N_WAIT_CHIRP_JK t -> t <= 10 * k -> n_cnt s <= 5 ->
    at_ (nxt s i) N_WAIT_CHIRP_JK (t + 1) /\ n_cnt (nxt s i) = n_cnt s + ch s i /\ n_last (nxt s i) = i.
  Proof.
    intros s i t (H1 & H2) H Hc. un. rewrite H1, H2. destruct (Nat.ltb_spec 5 (n_cnt s)); [lia|]. assert (Eh : (hs_reset_time k <? t) = false) by (unfold hs_reset_time, detach_time; apply Nat.ltb_ge; lia). rewrite Eh. cbn [negb andb]. rewrite inc_time by lia. split; [split; reflexivity|]. split; [|reflexivity].
    unfold ch. destruct (line_eqb (n_last s) i); cbn [negb andb]; [lia|]. destruct (Nat.eqb_spec (n_cnt s) 255); [lia|]. reflexivity.
  Qed.
  Lemma jk_hs : forall s i t, at_ s N_WAIT_CHIRP_JK t -> n_cnt s = 6 -> n_st (nxt s i) = N_HIGHSPEED.
  Proof. intros s i t (H1 & H2) Hc. un. rewrite H1, Hc. reflexivity. Qed.
  Lemma jk_fs : forall s i, at_ s N_WAIT_CHIRP_JK (10 * k + 1) -> n_cnt s <= 5 -> n_st (nxt s i) = N_FULLSPEED.
  Proof.
    intros s i (H1 & H2) Hc. un. rewrite H1, H2. destruct (Nat.ltb_spec 5 (n_cnt s)); [lia|]. assert (Eh : (hs_reset_time k <? 10 * k + 1) = true) by (unfold hs_reset_time, detach_time; apply Nat.ltb_lt; lia). rewrite Eh. reflexivity.
  Qed.

  (** runs *)
  Definition sp (s : ng_st) : option speed * bool := seen (ng_o rb s).
  Lemma f_cons : forall s i l, final step s (i :: l) = final step (nxt s i) l.
  Proof. intros. unfold final. cbn [run]. change (step s i) with (nxt s i, ng_o rb s). cbv beta iota. destruct (run step (nxt s i) l). reflexivity. Qed.
  Lemma o_cons : forall s i l, map seen (outs step s (i :: l)) = sp s :: map seen (outs step (nxt s i) l).
  Proof. intros. unfold outs. cbn [run]. change (step s i) with (nxt s i, ng_o rb s). cbv beta iota. destruct (run step (nxt s i) l). reflexivity. Qed.
  Lemma f_app : forall a s b, final step s (a ++ b) = final step (final step s a) b.
  Proof. induction a as [|x a IH]; intros; [reflexivity|]. cbn [app]. rewrite !f_cons. apply IH. Qed.
  Lemma o_app : forall a s b, map seen (outs step s (a ++ b)) = map seen (outs step s a) ++ map seen (outs step (final step s a) b).
  Proof. induction a as [|x a IH]; intros; [reflexivity|]. cbn [app]. rewrite !o_cons, f_cons, IH. reflexivity. Qed.
  Notation none := (@None speed, false).
  Notation chirp := (@None speed, true).
  Lemma sp_of : forall s x t, at_ s x t -> sp s = match x with N_SEND_CHIRP_K => chirp | N_FULLSPEED => (Some FullSpeed, false) | N_HIGHSPEED => (Some HighSpeed, false) | _ => none end.
  Proof. intros s x t (H & _). unfold sp, seen, ng_o. cbn [o_speed o_chirp]. rewrite H. destruct x; reflexivity. Qed.

  Lemma idle_run : forall l s t, at_ s N_IDLE t -> t + length l = k + 2 -> l <> [] ->
    at_ (final step s l) N_WAIT_RST 0 /\ map seen (outs step s l) = repeat none (length l).
  Proof.
    induction l as [|i l IH]; intros s t Hs Hl Hne; [congruence|]. rewrite f_cons, o_cons. cbn [length repeat] in *. rewrite (sp_of _ _ _ Hs).
    destruct l as [|j l].
    - cbn [length] in Hl. replace t with (k + 1) in Hs by lia. split; [apply idle_go; exact Hs|reflexivity].
    - destruct (IH (nxt s i) (t + 1)) as (H1 & H2); [apply idle_stay; [exact Hs|cbn [length] in Hl; lia]|lia|discriminate|].
      split; [exact H1|]. rewrite H2. reflexivity.
  Qed.
  Lemma run_app : forall a b n, se0_run (a ++ b) n = se0_run b (se0_run a n).
  Proof. induction a as [|[] a IH]; intros; cbn [app se0_run]; [reflexivity|apply IH..]. Qed.
  (** waiting with the counter equal to the run of SE0 *)
  Lemma wait_run : forall l s n, at_ s N_WAIT_RST n -> (forall a b, l = a ++ b -> se0_run a n < 4 * k + 1) ->
    at_ (final step s l) N_WAIT_RST (se0_run l n) /\ map seen (outs step s l) = repeat none (length l).
  Proof.
    induction l as [|i l IH]; intros s n Hs Hl; [split; [exact Hs|reflexivity]|].
    pose proof (Hl [] (i :: l) eq_refl) as H0. cbn [se0_run] in H0. rewrite f_cons, o_cons, (sp_of _ _ _ Hs). cbn [length repeat].
    assert (Hc : at_ (nxt s i) N_WAIT_RST (match i with SE0 => n + 1 | _ => 0 end)).
    { destruct i; [apply wait_stay; [exact Hs|lia]|apply (wait_zero s n); [exact Hs|lia|discriminate]..]. }
    destruct (IH _ _ Hc) as (H1 & H2).
    - intros a b E. pose proof (Hl (i :: a) b) as H. cbn [app] in H. rewrite E in H. specialize (H eq_refl). destruct i; exact H.
    - rewrite H2. split; [|reflexivity]. destruct i; exact H1.
  Qed.
  Lemma run_se0 : forall n m, se0_run (repeat SE0 n) m = m + n.
  Proof. induction n; intros; cbn [repeat se0_run]; [lia|]. rewrite IHn. lia. Qed.
  Lemma attach_run : forall s, at_ s N_WAIT_RST 0 ->
    at_ (final step s (repeat SE0 (4 * k + 2))) N_SEND_CHIRP_K (4 * k + 2) /\ map seen (outs step s (repeat SE0 (4 * k + 2))) = repeat none (4 * k + 2).
  Proof.
    intros s Hs. assert (Er : forall A (x : A), repeat x (4 * k + 2) = repeat x (4 * k + 1) ++ [x]).
    { intros A x. replace (4 * k + 2) with ((4 * k + 1) + 1) by lia. rewrite repeat_app. reflexivity. }
    rewrite !Er, f_app, o_app.
    assert (Hw : at_ (final step s (repeat SE0 (4 * k + 1))) N_WAIT_RST (4 * k + 1) /\ map seen (outs step s (repeat SE0 (4 * k + 1))) = repeat none (4 * k + 1)).
    { clear -Hs Hk. assert (G : forall n m s, at_ s N_WAIT_RST m -> m + n <= 4 * k + 1 ->
        at_ (final step s (repeat SE0 n)) N_WAIT_RST (m + n) /\ map seen (outs step s (repeat SE0 n)) = repeat none n).
      { induction n; intros m s0 H0 Hm; [rewrite Nat.add_0_r; split; [exact H0|reflexivity]|]. cbn [repeat]. rewrite f_cons, o_cons, (sp_of _ _ _ H0).
        destruct (IHn (m + 1) (nxt s0 SE0)) as (H1 & H2); [apply wait_stay; [exact H0|lia]|lia|]. rewrite H2. split; [|reflexivity].
        replace (m + S n) with (m + 1 + n) by lia. exact H1. }
      apply (G (4 * k + 1) 0 s Hs). lia. }
    destruct Hw as (H1 & H2). rewrite H2. rewrite f_cons, o_cons, (sp_of _ _ _ H1). split; [|reflexivity]. apply wait_go. exact H1.
  Qed.
  Lemma send_run : forall l s t, at_ s N_SEND_CHIRP_K t -> t + length l = 5 * k + 2 -> l <> [] ->
    at_ (final step s l) N_WAIT_CHIRP_JK (5 * k + 2) /\ n_cnt (final step s l) = 0 /\ n_last (final step s l) = last l SE0 /\
    map seen (outs step s l) = repeat chirp (length l).
  Proof.
    induction l as [|i l IH]; intros s t Hs Hl Hne; [congruence|]. rewrite f_cons, o_cons. cbn [length repeat] in *. rewrite (sp_of _ _ _ Hs).
    destruct l as [|j l].
    - cbn [length] in Hl. replace t with (5 * k + 1) in Hs by lia. destruct (send_go s i Hs) as (H1 & H2 & H3).
      split; [exact H1|]. split; [exact H2|]. split; [exact H3|reflexivity].
    - destruct (IH (nxt s i) (t + 1)) as (H1 & H2 & H3 & H4); [apply send_stay; [exact Hs|cbn [length] in Hl; lia]|lia|discriminate|].
      split; [exact H1|]. split; [exact H2|]. split; [exact H3|]. rewrite H4. reflexivity.
  Qed.
  Lemma changes_mono : forall a p b, changes p a <= changes p (a ++ b).
  Proof. induction a as [|x a IH]; intros p b; [cbn; lia|]. cbn [app changes]. specialize (IH x b). lia. Qed.
  Lemma jk_run : forall l s t c, at_ s N_WAIT_CHIRP_JK t -> t + length l <= 10 * k + 1 -> n_cnt s = c ->
    (forall a x b, l = a ++ x :: b -> c + changes (n_last s) a <= 5) ->
    at_ (final step s l) N_WAIT_CHIRP_JK (t + length l) /\ n_cnt (final step s l) = c + changes (n_last s) l /\ map seen (outs step s l) = repeat none (length l).
  Proof.
    induction l as [|i l IH]; intros s t c Hs Hl Hc Hp; [cbn [length changes]; rewrite !Nat.add_0_r; auto|].
    rewrite f_cons, o_cons. cbn [length repeat changes] in *. rewrite (sp_of _ _ _ Hs).
    pose proof (Hp [] i l eq_refl) as H0. cbn [changes] in H0.
    destruct (jk_stay s i t Hs) as (H1 & H2 & H3); [lia|lia|].
    destruct (IH (nxt s i) (t + 1) (c + ch s i) H1) as (H4 & H5 & H6); [lia|lia| |].
    - intros a x b E. rewrite H3. pose proof (Hp (i :: a) x b) as H. cbn [app changes] in H. rewrite E in H. specialize (H eq_refl). unfold ch. lia.
    - rewrite H6. rewrite H3 in H5. split; [replace (t + S (length l)) with (t + 1 + length l) by lia; exact H4|]. split; [|reflexivity]. rewrite H5. unfold ch. lia.
  Qed.

  (** the whole handshake up to the end of the chirp *)
  Lemma handshake : forall s1 pre c2, at_ s1 N_WAIT_RST 0 -> short_runs (4 * k + 1) pre -> ended pre -> length c2 = k ->
    let l := pre ++ repeat SE0 (4 * k + 2) ++ c2 in
    at_ (final step s1 l) N_WAIT_CHIRP_JK (5 * k + 2) /\ n_cnt (final step s1 l) = 0 /\
    n_last (final step s1 l) = last c2 SE0 /\
    map seen (outs step s1 l) = repeat none (length pre + (4 * k + 2)) ++ repeat chirp k.
  Proof.
    intros s1 pre c2 A1 Hp He H2. cbv zeta. rewrite !f_app, !o_app.
    destruct (wait_run pre s1 0 A1 Hp) as (B1 & B2). rewrite B2. set (s2 := final step s1 pre) in *.
    assert (Ez : se0_run pre 0 = 0).
    { destruct pre as [|x pre] using rev_ind; [reflexivity|]. unfold ended in He. rewrite rev_unit in He. rewrite run_app. destruct x; [contradiction|reflexivity..]. }
    rewrite Ez in B1. destruct (attach_run s2 B1) as (C1 & C2). rewrite C2. set (s3 := final step s2 (repeat SE0 (4 * k + 2))) in *.
    destruct (send_run c2 s3 (4 * k + 2) C1) as (D1 & D2 & D3 & D4); [lia|destruct c2; [cbn in H2; lia|discriminate]|].
    split; [exact D1|]. split; [exact D2|]. split; [exact D3|]. rewrite D4, H2. rewrite !repeat_app. rewrite <- !app_assoc. reflexivity.
  Qed.
  Lemma hs_from : forall s1 pre c2 w x y, at_ s1 N_WAIT_RST 0 -> short_runs (4 * k + 1) pre -> ended pre -> length c2 = k ->
    changes (last c2 SE0) w = 5 -> changes (last c2 SE0) (w ++ [x]) = 6 -> length w + 2 <= 5 * k ->
    let l := pre ++ repeat SE0 (4 * k + 2) ++ c2 ++ w ++ [x; y] in
    map seen (outs step s1 l) = repeat none (length pre + (4 * k + 2)) ++ repeat chirp k ++ repeat none (length w + 2) /\
    o_speed (ng_o rb (final step s1 l)) = Some HighSpeed.
  Proof.
    intros s1 pre c2 w x y H0 Hp He H2 Hw Hx Hl. cbv zeta.
    destruct (handshake s1 pre c2 H0 Hp He H2) as (A1 & A2 & A3 & A4).
    replace (pre ++ repeat SE0 (4 * k + 2) ++ c2 ++ w ++ [x; y]) with ((pre ++ repeat SE0 (4 * k + 2) ++ c2) ++ (w ++ [x]) ++ [y])
      by (rewrite <- !app_assoc; reflexivity).
    set (l := pre ++ repeat SE0 (4 * k + 2) ++ c2) in *. set (s := final step s1 l) in *.
    rewrite (f_app l), (o_app l), A4. fold s. rewrite (f_app (w ++ [x])), (o_app (w ++ [x])).
    destruct (jk_run (w ++ [x]) s (5 * k + 2) 0 A1) as (B1 & B2 & B3).
    - rewrite app_length. cbn [length]. lia.
    - exact A2.
    - intros a z b E. rewrite A3. cbn [Nat.add]. destruct b as [|b1 b] using rev_ind.
      + apply app_inj_tail in E. destruct E as (<- & _). lia.
      + rewrite app_comm_cons, app_assoc in E. apply app_inj_tail in E. destruct E as (E & _). pose proof (changes_mono a (last c2 SE0) (z :: b)). rewrite <- E in H. lia.
    - rewrite B3. rewrite A3, Hx in B2. cbn [Nat.add] in B2. split.
      + rewrite o_cons, (sp_of _ _ _ B1). rewrite app_length. cbn [length]. rewrite <- !app_assoc. do 2 f_equal.
        replace (length w + 2) with ((length w + 1) + 1) by lia. rewrite (repeat_app _ (length w + 1) 1). reflexivity.
      + rewrite f_cons, final_nil. unfold ng_o. cbn [o_speed]. rewrite (jk_hs _ y _ B1 B2). reflexivity.
  Qed.
  Lemma fs_from : forall s1 pre c2 w y, at_ s1 N_WAIT_RST 0 -> short_runs (4 * k + 1) pre -> ended pre -> length c2 = k ->
    changes (last c2 SE0) w <= 5 -> length w + 1 = 5 * k ->
    let l := pre ++ repeat SE0 (4 * k + 2) ++ c2 ++ w ++ [y] in
    map seen (outs step s1 l) = repeat none (length pre + (4 * k + 2)) ++ repeat chirp k ++ repeat none (length w + 1) /\
    o_speed (ng_o rb (final step s1 l)) = Some FullSpeed.
  Proof.
    intros s1 pre c2 w y H0 Hp He H2 Hw Hl. cbv zeta.
    destruct (handshake s1 pre c2 H0 Hp He H2) as (A1 & A2 & A3 & A4).
    replace (pre ++ repeat SE0 (4 * k + 2) ++ c2 ++ w ++ [y]) with ((pre ++ repeat SE0 (4 * k + 2) ++ c2) ++ w ++ [y])
      by (rewrite <- !app_assoc; reflexivity).
    set (l := pre ++ repeat SE0 (4 * k + 2) ++ c2) in *. set (s := final step s1 l) in *. rewrite (f_app l), (o_app l), A4. fold s. rewrite (f_app w), (o_app w).
    destruct (jk_run w s (5 * k + 2) 0 A1) as (B1 & B2 & B3).
    - lia.
    - exact A2.
    - intros a z b E. rewrite A3. cbn [Nat.add]. pose proof (changes_mono a (last c2 SE0) (z :: b)). rewrite <- E in H. lia.
    - rewrite A3 in B2. cbn [Nat.add] in B2. rewrite B3. split.
      + rewrite o_cons, (sp_of _ _ _ B1). rewrite <- !app_assoc. do 2 f_equal. rewrite (repeat_app _ (length w) 1). reflexivity.
      + rewrite f_cons, final_nil. unfold ng_o. cbn [o_speed]. replace (5 * k + 2 + length w) with (10 * k + 1) in B1 by lia.
        rewrite (jk_fs _ y B1); [reflexivity|lia].
  Qed.
  (** after power on *)
  Lemma power_on : forall c0, length c0 = k + 2 -> at_ (final step (ng_init None) c0) N_WAIT_RST 0 /\ map seen (outs step (ng_init None) c0) = repeat none (k + 2).
  Proof.
    intros c0 H0. rewrite <- H0. apply (idle_run c0 (ng_init None) 0); [split; reflexivity|lia|destruct c0; [cbn in H0; lia|discriminate]].
  Qed.
  Lemma to_hs : forall c0 pre c2 w x y, length c0 = k + 2 -> short_runs (4 * k + 1) pre -> ended pre -> length c2 = k ->
    changes (last c2 SE0) w = 5 -> changes (last c2 SE0) (w ++ [x]) = 6 -> length w + 2 <= 5 * k ->
    let l := c0 ++ pre ++ repeat SE0 (4 * k + 2) ++ c2 ++ w ++ [x; y] in
    map seen (outs step (ng_init None) l) = repeat none (k + 2 + length pre + (4 * k + 2)) ++ repeat chirp k ++ repeat none (length w + 2) /\
    o_speed (ng_o rb (final step (ng_init None) l)) = Some HighSpeed.
  Proof.
    intros c0 pre c2 w x y H0 Hp He H2 Hw Hx Hl. cbv zeta. destruct (power_on c0 H0) as (A1 & A2). rewrite f_app, o_app, A2.
    destruct (hs_from _ pre c2 w x y A1 Hp He H2 Hw Hx Hl) as (B1 & B2). rewrite B1. split; [|exact B2].
    rewrite <- (Nat.add_assoc (k + 2)), (repeat_app _ (k + 2)), <- app_assoc. reflexivity.
  Qed.
  Lemma to_fs : forall c0 pre c2 w y, length c0 = k + 2 -> short_runs (4 * k + 1) pre -> ended pre -> length c2 = k ->
    changes (last c2 SE0) w <= 5 -> length w + 1 = 5 * k ->
    let l := c0 ++ pre ++ repeat SE0 (4 * k + 2) ++ c2 ++ w ++ [y] in
    map seen (outs step (ng_init None) l) = repeat none (k + 2 + length pre + (4 * k + 2)) ++ repeat chirp k ++ repeat none (length w + 1) /\
    o_speed (ng_o rb (final step (ng_init None) l)) = Some FullSpeed.
  Proof.
    intros c0 pre c2 w y H0 Hp He H2 Hw Hl. cbv zeta. destruct (power_on c0 H0) as (A1 & A2). rewrite f_app, o_app, A2.
    destruct (fs_from _ pre c2 w y A1 Hp He H2 Hw Hl) as (B1 & B2). rewrite B1. split; [|exact B2].
    rewrite <- (Nat.add_assoc (k + 2)), (repeat_app _ (k + 2)), <- app_assoc. reflexivity.
  Qed.

  (** reset detection *)
  Definition se0_ok (l : list line) (s : ng_st) : Prop := n_se0 s = Nat.min (se0_run l 0) (2 ^ rb).
  Lemma rst_iff : forall s, n_se0 s <= 2 ^ rb -> ng_rst rb s = (n_se0 s =? 2 ^ rb).
  Proof.
    intros s H. unfold ng_rst. assert (2 ^ rb <> 0) by (apply Nat.pow_nonzero; discriminate). destruct (Nat.eqb_spec (n_se0 s) (2 ^ rb)) as [->|Hne].
    - rewrite Nat.div_same by assumption. reflexivity.
    - rewrite Nat.div_small by lia. reflexivity.
  Qed.
  Lemma run_snoc : forall l i n, se0_run (l ++ [i]) n = match i with SE0 => se0_run l n + 1 | _ => 0 end.
  Proof. intros l i n. rewrite run_app. destruct i; reflexivity. Qed.
  Lemma se0_inv : forall p l, se0_ok l (final step (ng_init p) l).
  Proof.
    intros p l. induction l as [|i l IH] using rev_ind; [unfold se0_ok; cbn; destruct (2 ^ rb); reflexivity|].
    rewrite final_snoc. unfold se0_ok in *. set (s := final step (ng_init p) l) in *. cbn [ng_step fst n_se0]. unfold se0_next. rewrite run_snoc.
    rewrite rst_iff by lia. destruct i; [|reflexivity..].
    destruct (Nat.eqb_spec (n_se0 s) (2 ^ rb)); [lia|]. rewrite wrap_small; [lia|]. rewrite (Nat.add_1_r rb), Nat.pow_succ_r'. pose proof (pow2_pos rb). lia.
  Qed.
  Lemma run_ends : forall n l, n <= se0_run l 0 <-> exists a, l = a ++ repeat SE0 n.
  Proof.
    induction n; intros l.
    - split; [intros _; exists l; rewrite app_nil_r; reflexivity|lia].
    - assert (Er : repeat SE0 (S n) = repeat SE0 n ++ [SE0]) by (change [SE0] with (repeat SE0 1); rewrite <- repeat_app, Nat.add_1_r; reflexivity). rewrite Er.
      destruct l as [|i l _] using rev_ind.
      + cbn. split; [lia|]. intros (a & E). apply (f_equal (@length line)) in E. rewrite !app_length in E. cbn in E. lia.
      + rewrite run_snoc. split.
        * intros H. destruct i; try lia. destruct (proj1 (IHn l)) as (a & E); [lia|]. exists a. rewrite E, <- app_assoc. reflexivity.
        * intros (a & E). rewrite app_assoc in E. apply app_inj_tail in E. destruct E as (E & ->). assert (n <= se0_run l 0) by (apply IHn; exists a; exact E). lia.
  Qed.
  Lemma reset_detected : forall p l, o_rst (ng_o rb (final step (ng_init p) l)) = true <-> exists a, l = a ++ repeat SE0 (2 ^ rb).
  Proof.
    intros p l. rewrite <- run_ends. pose proof (se0_inv p l) as H. unfold se0_ok in H. cbn [ng_o o_rst]. rewrite rst_iff by lia. rewrite Nat.eqb_eq. lia.
  Qed.

  (** a chirp only after a long SE0 *)
  Definition chirp_inv (l : list line) (s : ng_st) : Prop :=
    match n_st s with
    | N_WAIT_RST => n_time s <= 4 * k + 1 /\ n_time s <= se0_run l 0
    | N_SEND_CHIRP_K => exists a c, l = a ++ repeat SE0 (4 * k + 1) ++ c /\ length c <= n_time s + 1 /\ n_time s <= 5 * k + 1
    | _ => True
    end.
  Lemma chirp_ok : forall p l, chirp_inv l (final step (ng_init p) l).
  Proof.
    intros p l. induction l as [|i l IH] using rev_ind; [destruct p as [[|]|]; exact I|].
    rewrite final_snoc. set (s := final step (ng_init p) l) in *. unfold chirp_inv in *. cbn [ng_step fst n_st n_time].
    unfold time_next, st_next. destruct (n_st s) eqn:Es; cbn [is_wait negb andb].
    - destruct (detach_time k <? n_time s); cbn [is_wait]; [|exact I]. split; lia.
    - destruct IH as (I1 & I2). destruct (Nat.ltb_spec (attach_fs_time k) (n_time s)); cbn [is_wait].
      + unfold attach_fs_time, detach_time in *. destruct (proj1 (run_ends (4 * k + 1) l)) as (a & E); [lia|].
        exists a, [i]. split; [rewrite E, <- app_assoc; reflexivity|]. cbn [length].
        destruct i; cbn [negb line_eqb]; try lia. destruct (n_time s =? _); lia.
      + unfold attach_fs_time, detach_time in *. rewrite run_snoc. destruct i; cbn [negb line_eqb]; try lia. rewrite inc_time by lia. lia.
    - destruct IH as (a & c & E & I1 & I2). destruct (Nat.ltb_spec (chirpk_time k) (n_time s)); cbn [is_wait]; [exact I|].
      unfold chirpk_time, attach_fs_time, detach_time in *. rewrite inc_time by lia. exists a, (c ++ [i]). split; [rewrite E, <- !app_assoc; reflexivity|].
      rewrite app_length. cbn [length]. lia.
    - destruct (5 <? n_cnt s); [exact I|]. destruct (hs_reset_time k <? n_time s); exact I.
    - destruct ((hs_reset_time k <? n_time s) && ng_rst rb s); cbn [is_wait]; [|exact I]. split; lia.
    - destruct ((hs_reset_time k <? n_time s) && ng_rst rb s); cbn [is_wait]; [|exact I]. split; lia.
  Qed.
  Lemma chirp_after : forall p l, o_chirp (ng_o rb (final step (ng_init p) l)) = true ->
    exists a c, l = a ++ repeat SE0 (4 * k + 1) ++ c /\ length c <= 5 * k + 2.
  Proof.
    intros p l H. pose proof (chirp_ok p l) as I. unfold chirp_inv in I. cbn [ng_o o_chirp] in H. destruct (n_st (final step (ng_init p) l)); try discriminate.
    destruct I as (a & c & E & I1 & I2). exists a, c. split; [exact E|lia].
  Qed.

  (** the speed is kept until a reset *)
  Lemma keep : forall l s v, o_speed (ng_o rb s) = Some v -> Forall (fun o => o_rst o = false) (outs step s l) ->
    Forall (fun o => o_speed o = Some v) (outs step s l) /\ o_speed (ng_o rb (final step s l)) = Some v.
  Proof.
    induction l as [|i l IH]; intros s v Hs Hr; [split; [constructor|exact Hs]|].
    rewrite outs_cons in *. rewrite final_cons. change (snd (step s i)) with (ng_o rb s) in *. change (fst (step s i)) with (nxt s i) in *.
    inversion Hr as [|? ? H1 H2]; subst.
    assert (Hn : o_speed (ng_o rb (nxt s i)) = Some v).
    { cbn [ng_o o_rst o_speed] in *. unfold nxt. cbn [ng_step fst n_st]. unfold st_next. destruct (n_st s); try discriminate; rewrite H1, Bool.andb_false_r; exact Hs. }
    destruct (IH _ _ Hn H2) as (A & B). split; [constructor; assumption|exact B].
  Qed.
  (** after 10 ms a reset starts the negotiation again *)
  Lemma long_time : forall l s, Forall (fun o => o_speed o <> None) (outs step s l) -> o_speed (ng_o rb (final step s l)) <> None ->
    Nat.min (length l) (10 * k + 1) <= n_time (final step s l).
  Proof.
    intros l. induction l as [|i l IH] using rev_ind; intros s Hs Hf; [cbn; lia|].
    rewrite outs_snoc in Hs. apply Forall_app in Hs. destruct Hs as (Hs & Hl). inversion Hl as [|? ? H1 _]; subst.
    specialize (IH s Hs H1). rewrite final_snoc in *. set (s1 := final step s l) in *. rewrite app_length. cbn [length].
    cbn [ng_step fst n_time ng_o o_speed n_st] in *. unfold time_next. pose proof mask_large as M. unfold mask in M.
    assert (E1 : is_wait (n_st s1) = false) by (destruct (n_st s1); [congruence..|reflexivity|reflexivity]).
    assert (E2 : is_wait (st_next k rb s1) = false) by (destruct (st_next k rb s1); [congruence..|reflexivity|reflexivity]).
    rewrite E1, E2. cbn [negb andb]. destruct (Nat.eqb_spec (n_time s1) (2 ^ log2ceil (hs_reset_time k) - 1)); lia.
  Qed.
  Lemma restart_at : forall l s i, Forall (fun o => o_speed o <> None) (outs step s (l ++ [i])) -> 10 * k + 1 <= length l ->
    o_rst (ng_o rb (final step s l)) = true -> at_ (final step s (l ++ [i])) N_WAIT_RST 0.
  Proof.
    intros l s i Hs Hl Hr. rewrite outs_snoc in Hs. apply Forall_app in Hs. destruct Hs as (Hs & Hf). inversion Hf as [|? ? Ev _]; subst.
    pose proof (long_time l s Hs Ev) as Ht. rewrite final_snoc. set (s1 := final step s l) in *.
    assert (Eh : (hs_reset_time k <? n_time s1) = true) by (unfold hs_reset_time, detach_time; apply Nat.ltb_lt; lia).
    cbn [ng_o o_speed o_rst ng_step fst n_st] in *. unfold at_, time_next, st_next. cbn [n_st n_time]. rewrite Eh, Hr.
    destruct (n_st s1); try congruence; split; reflexivity.
  Qed.
  Lemma again_hs : forall l0 s i, Forall (fun o => o_speed o <> None) (outs step s (l0 ++ [i])) -> 10 * k + 1 <= length l0 ->
    o_rst (ng_o rb (final step s l0)) = true ->
    forall pre c2 w x y, short_runs (4 * k + 1) pre -> ended pre -> length c2 = k ->
    changes (last c2 SE0) w = 5 -> changes (last c2 SE0) (w ++ [x]) = 6 -> length w + 2 <= 5 * k ->
    let s1 := final step s (l0 ++ [i]) in let l := pre ++ repeat SE0 (4 * k + 2) ++ c2 ++ w ++ [x; y] in
    map seen (outs step s1 l) = repeat none (length pre + (4 * k + 2)) ++ repeat chirp k ++ repeat none (length w + 2) /\
    o_speed (ng_o rb (final step s1 l)) = Some HighSpeed.
  Proof. intros l0 s i H1 H2 H3 pre c2 w x y. intros. apply hs_from; try assumption. apply restart_at; assumption. Qed.
  Lemma again_fs : forall l0 s i, Forall (fun o => o_speed o <> None) (outs step s (l0 ++ [i])) -> 10 * k + 1 <= length l0 ->
    o_rst (ng_o rb (final step s l0)) = true ->
    forall pre c2 w y, short_runs (4 * k + 1) pre -> ended pre -> length c2 = k ->
    changes (last c2 SE0) w <= 5 -> length w + 1 = 5 * k ->
    let s1 := final step s (l0 ++ [i]) in let l := pre ++ repeat SE0 (4 * k + 2) ++ c2 ++ w ++ [y] in
    map seen (outs step s1 l) = repeat none (length pre + (4 * k + 2)) ++ repeat chirp k ++ repeat none (length w + 1) /\
    o_speed (ng_o rb (final step s1 l)) = Some FullSpeed.
  Proof. intros l0 s i H1 H2 H3 pre c2 w y. intros. apply fs_from; try assumption. apply restart_at; assumption. Qed.
End P.

(** refutations for a clock of 1 cycle per ms *)
Lemma long_chirp_refuted : exists k rb l n, 1 <= k /\ k < n /\
  exists a, map (fun o => o_chirp o) (outs (ng_step k rb) (ng_init None) l) = a ++ repeat true n.
Proof.
  exists 1, 14, (repeat LJ 3 ++ repeat SE0 5 ++ repeat LJ 8), 7. split; [lia|]. split; [lia|].
  exists (repeat false 9). lazy. reflexivity.
Qed.
Lemma no_j_refuted : exists k rb l, 1 <= k /\ ~ In LJ l /\ o_speed (ng_o rb (final (ng_step k rb) (ng_init None) l)) = Some HighSpeed.
Proof.
  exists 2, 14, (repeat SE0 4 ++ repeat SE0 10 ++ repeat LK 2 ++ [SE0; LK; SE0; LK; SE0; LK; SE0]). split; [lia|]. split; [|lazy; reflexivity].
  cbn. intuition discriminate.
Qed.
