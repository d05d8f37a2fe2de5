From Verif Require Import Base BaseFacts FlipProofs CumMaskModel CumMaskSpec.

Section Cum.
  Context {B : Type}.
  Variable nb : nat.
  Notation step := (@cm_step B nb).
  Notation cyc := (cm_in B * cm_out B)%type.
  Variable m0 : cm_mem B.

  (** [pending]: the write which waits for the mask *)
  Definition pending (t : list cyc) (w : cm_wr B) : Prop := exists t1 x, t = t1 ++ [x] /\ c_w (fst x) = w /\ w_vld w = true /\ co_wrd (snd x) = false.
  Record CInv (s : cm_st B) (t : list cyc) : Prop := {
    ci_data : forall a b, b < nb -> cm_data (c_mem s) a b = data_after m0 t a b;
    ci_mask : forall a b, b < nb -> cm_mask (c_mem s) a b = mask_after m0 t a b;
    ci_pre : c_pre s = true -> exists w, pending t w /\ w_acc w = true /\ w_ow w = false /\
               exists d, c_dout s = Some d /\ forall b, b < nb -> snd d b = mask_after m0 t (w_addr w) b }.

  Lemma cinv_step s t i : CInv s t -> cm_kept (t ++ [(i, snd (step s i))]) -> CInv (fst (step s i)) (t ++ [(i, snd (step s i))]).
  Proof.
    intros [Hd Hm Hp] Hk.
    assert (c_pre s = true -> w_vld (c_w i) = true /\ w_acc (c_w i) = true /\ w_ow (c_w i) = false /\
      exists d, c_dout s = Some d /\ forall b, b < nb -> snd d b = mask_after m0 t (w_addr (c_w i)) b) as Hp'.
    { intros P. destruct (Hp P) as [w [[t1 [x [-> [Ew [V R]]]]] [A [O D]]]].
      assert (c_w i = w) as ->; [|auto]. rewrite <- Ew. apply (Hk t1 x (i, snd (step s i)) []); [rewrite <- app_assoc; reflexivity|congruence|exact R]. }
    clear Hp. assert (flat_map cm_written (t ++ [(i, snd (step s i))]) = flat_map cm_written t ++
      (if w_vld (c_w i) && (negb (w_acc (c_w i)) || w_ow (c_w i) || c_pre s) then [c_w i] else [])) as Ew.
    { rewrite flat_map_app. cbn [flat_map]. rewrite app_nil_r. reflexivity. }
    set (w := c_w i) in *.
    constructor.
    - intros a b Hb. unfold data_after. rewrite Ew, fold_left_app. cbn [step fst c_mem]. unfold cm_step. fold w. cbn [fst c_mem].
      replace (w_ow w || negb (w_acc w) || c_pre s) with (negb (w_acc w) || w_ow w || c_pre s) by (destruct (w_ow w), (w_acc w); reflexivity).
      destruct (w_vld w && (negb (w_acc w) || w_ow w || c_pre s)); cbn [fold_left cm_data]; [|apply Hd, Hb].
      unfold wr_data. destruct ((a =? w_addr w) && w_we w b); [reflexivity|apply Hd, Hb].
    - intros a b Hb. unfold mask_after. rewrite Ew, fold_left_app. unfold cm_step. fold w. cbn [fst c_mem].
      replace (w_ow w || negb (w_acc w) || c_pre s) with (negb (w_acc w) || w_ow w || c_pre s) by (destruct (w_ow w), (w_acc w); reflexivity).
      destruct (w_vld w && (negb (w_acc w) || w_ow w || c_pre s)) eqn:En; cbn [fold_left cm_mask]; [|apply Hm, Hb].
      unfold wr_mask. destruct (Nat.eqb_spec a (w_addr w)) as [-> |Ha]; cbn [andb]; [|apply Hm, Hb].
      change (fold_left (fun d w => wr_mask w d) (flat_map cm_written t) (cm_mask m0)) with (mask_after m0 t).
      unfold mask_we. destruct (c_pre s) eqn:Pr.
      + destruct (Hp' eq_refl) as [V [A [O [d [Ed Dd]]]]]. rewrite Ed, A, O. cbn [negb andb orb]. rewrite !orb_false_r.
        destruct (existsb _ _) eqn:Ex; [rewrite (Dd b Hb); reflexivity|]. rewrite (Hm _ _ Hb).
        destruct (w_we w b) eqn:Eb; [|reflexivity]. exfalso. enough (existsb (fun k => (k / 8 =? b / 8) && w_we w k) (seq 0 nb) = true) by congruence.
        apply existsb_exists. exists b. rewrite Nat.eqb_refl, Eb. split; [apply in_seq; lia|reflexivity].
      + apply andb_true_iff in En. destruct En as [_ En]. rewrite orb_false_r in En. rewrite <- orb_assoc, En, orb_true_r.
        replace (w_acc w && negb (w_ow w)) with false by (destruct (w_acc w), (w_ow w); try reflexivity; discriminate En). rewrite orb_false_r. reflexivity.
    - intros P. assert (w_vld w = true /\ w_acc w = true /\ w_ow w = false /\ c_pre s = false) as [V [A [O P0]]].
      { unfold cm_step in P. cbn [fst c_pre] in P. fold w in P. destruct (w_vld w).
        - apply andb_true_iff in P. destruct P as [P O]. apply andb_true_iff in P. destruct P as [P A]. apply negb_true_iff in P, O. auto.
        - destruct (Hp' P) as [V' _]. discriminate V'. }
      exists w. split; [exists t; eexists; split; [reflexivity|]; unfold cm_step; cbn [fst snd co_wrd]; fold w; rewrite A, O, P0; auto|]. split; [exact A|]. split; [exact O|].
      exists (cm_at (c_mem s) (w_addr w)). split; [unfold cm_step; fold w; cbn [fst c_dout]; rewrite V, A, O; reflexivity|]. intros b Hb. cbn [cm_at snd].
      rewrite (Hm _ _ Hb). unfold mask_after. rewrite Ew, A, O, P0. cbn [negb orb andb]. rewrite andb_false_r, app_nil_r. reflexivity.
  Qed.

  Lemma ckept_prefix (t : list cyc) y : cm_kept (t ++ [y]) -> cm_kept t.
  Proof. intros H t1 x z t2 E. apply (H t1 x z (t2 ++ [y])). rewrite E, <- app_assoc. reflexivity. Qed.
  Lemma cinv_run n is : cm_kept (trace step (cm_init m0 n) is) -> CInv (final step (cm_init m0 n) is) (trace step (cm_init m0 n) is).
  Proof.
    induction is as [|i is IH] using rev_ind; intros Hk.
    - constructor; try reflexivity. discriminate.
    - rewrite trace_snoc, final_snoc in *. apply cinv_step; [|exact Hk]. apply IH, (ckept_prefix _ _ Hk).
  Qed.

  Lemma ckept_app (a b : list cyc) : cm_kept (a ++ b) -> cm_kept a.
  Proof. intros H t1 x z t2 E. apply (H t1 x z (t2 ++ b)). rewrite E, <- app_assoc. reflexivity. Qed.
  Lemma cut n is t1 x y t2 : cm_kept (trace step (cm_init m0 n) is) -> trace step (cm_init m0 n) is = t1 ++ x :: y :: t2 ->
    exists s, CInv s t1 /\ snd x = snd (step s (fst x)) /\ snd y = snd (step (fst (step s (fst x))) (fst y)) /\ exists is1, s = final step (cm_init m0 n) is1 /\ exists is2, is = is1 ++ is2.
  Proof.
    intros Hk E. rewrite E in Hk. destruct (trace_cut _ _ _ _ _ _ E) as [is1 [i [r [Ei [Et [-> E1]]]]]]. destruct r as [|j r]; [discriminate|].
    rewrite trace_cons in E1. injection E1 as -> _. exists (final step (cm_init m0 n) is1). split; [|cbn [fst snd]; eauto 6].
    rewrite Et. apply cinv_run. rewrite <- Et. apply (ckept_app _ _ Hk).
  Qed.

  Lemma read_ok n is t1 x y t2 : cm_kept (trace step (cm_init m0 n) is) -> trace step (cm_init m0 n) is = t1 ++ x :: y :: t2 ->
    c_rv (fst x) = true -> w_vld (c_w (fst x)) && w_acc (c_w (fst x)) && negb (w_ow (c_w (fst x))) = false ->
    cm_shows nb m0 t1 (c_ra (fst x)) (co_d (snd y)).
  Proof.
    intros Hk E V W. destruct (cut _ _ _ _ _ _ Hk E) as [s [I [_ [Ey _]]]]. rewrite Ey. unfold cm_step at 1. cbn [snd co_d].
    unfold cm_step. cbn [fst c_dout]. rewrite W, V. cbn [orb cm_read]. eexists. split; [reflexivity|]. intros b Hb. cbn [cm_at fst snd].
    split; [apply (ci_data _ _ I), Hb|apply (ci_mask _ _ I), Hb].
  Qed.
  Lemma xread_ok n is t1 x y t2 k a : cm_kept (trace step (cm_init m0 n) is) -> Forall (fun i => length (c_x i) = n) is ->
    trace step (cm_init m0 n) is = t1 ++ x :: y :: t2 -> nth_error (c_x (fst x)) k = Some (true, a) ->
    exists d, nth_error (co_x (snd y)) k = Some d /\ cm_shows nb m0 t1 a d.
  Proof.
    intros Hk Hx E Hn. destruct (cut _ _ _ _ _ _ Hk E) as [s [I [_ [Ey [is1 [Es [is2 Ei]]]]]]].
    assert (length (c_xdout s) = n) as Hl.
    { rewrite Es. rewrite Ei in Hx. apply Forall_app in Hx. destruct Hx as [Hx _]. clear -Hx. induction is1 as [|i l IH] using rev_ind; [apply repeat_length|].
      apply Forall_app in Hx. destruct Hx as [H1 H2]. inversion_clear H2 as [|? ? H3 _]. rewrite final_snoc.
      assert (forall s0 i0, length (c_xdout (fst (step s0 i0))) = min (length (c_x i0)) (length (c_xdout s0))) as F
        by (intros s0 i0; unfold cm_step; cbn [fst c_xdout]; rewrite map_length, combine_length; reflexivity).
      rewrite F, H3, (IH H1). apply Nat.min_id. }
    rewrite Ey. unfold cm_step at 1. cbn [snd co_x]. unfold cm_step. cbn [fst c_xdout].
    assert (exists d0, nth_error (combine (c_x (fst x)) (c_xdout s)) k = Some ((true, a), d0)) as [d0 E0].
    { assert (k < length (c_xdout s)) as L.
      { assert (k < length (c_x (fst x))) as L1 by (apply nth_error_Some; congruence).
        enough (length (c_x (fst x)) = n) by lia. rewrite Forall_forall in Hx. apply Hx.
        assert (In x (trace step (cm_init m0 n) is)) as Hin by (rewrite E; apply in_or_app; right; left; reflexivity).
        destruct x as [i o]. unfold trace in Hin. apply in_combine_l in Hin. exact Hin. }
      destruct (nth_error (c_xdout s) k) as [d0|] eqn:En; [|apply nth_error_None in En; lia]. exists d0.
      clear -Hn En. revert k Hn En. generalize (c_xdout s). induction (c_x (fst x)) as [|p l IH]; intros ds k Hn En; [destruct k; discriminate|].
      destruct ds as [|d ds]; [destruct k; discriminate|]. destruct k as [|k]; cbn in *; [congruence|apply IH; assumption]. }
    rewrite nth_error_map, E0. cbn [option_map fst snd cm_read]. eexists. split; [reflexivity|]. eexists. split; [reflexivity|]. intros b Hb. cbn [cm_at fst snd].
    split; [apply (ci_data _ _ I), Hb|apply (ci_mask _ _ I), Hb].
  Qed.
  (** a write waits at most one cycle *)
  Lemma write_wait n is t1 x y t2 : cm_kept (trace step (cm_init m0 n) is) -> trace step (cm_init m0 n) is = t1 ++ x :: y :: t2 ->
    w_vld (c_w (fst x)) = true -> co_wrd (snd x) = false -> co_wrd (snd y) = true.
  Proof.
    intros Hk E V R. destruct (cut _ _ _ _ _ _ Hk E) as [s [_ [Ex [Ey _]]]]. rewrite Ex in R. rewrite Ey.
    unfold cm_step in R. cbn [snd co_wrd] in R. unfold cm_step at 1. cbn [snd co_wrd]. unfold cm_step. cbn [fst c_pre]. rewrite V.
    apply orb_false_iff in R. destruct R as [R P]. apply orb_false_iff in R. destruct R as [A O]. apply negb_false_iff in A. rewrite A, O, P. cbn. apply orb_true_r.
  Qed.
End Cum.

(** a read accepted with the second cycle of an accumulating write *)
Definition cm_bad_w : cm_wr nat := mk_cmw true 1 (fun _ => 7) (fun _ => true) true false.
Definition cm_bad_is : list (cm_in nat) := [mk_cmi cm_bad_w true 2 []; mk_cmi cm_bad_w true 2 []; mk_cmi (mk_cmw false 0 (fun _ => 0) (fun _ => false) false false) false 0 []].
Definition cm_bad_m : cm_mem nat := mk_cmm (fun a _ => a) (fun _ _ => true).
Notation cm_bad_t := (trace (cm_step 4) (cm_init cm_bad_m 0) cm_bad_is).
Lemma cm_bad_kept : cm_kept cm_bad_t.
Proof.
  intros t1 x y t2 E V R. unfold cm_bad_is in E. rewrite !trace_cons in E.
  destruct t1 as [|z [|z' t1]]; cbn [app] in E.
  - injection E as <- <- _. reflexivity.
  - injection E as _ <- _ _. vm_compute in R. discriminate R.
  - exfalso. apply (f_equal (@length _)) in E. rewrite app_comm_cons, app_comm_cons, app_length in E. cbn in E. lia.
Qed.
Lemma cm_bad : exists t1 x y t2, cm_bad_t = t1 ++ x :: y :: t2 /\ c_rv (fst x) = true /\ co_rrd (snd x) = true /\ ~ cm_shows 4 cm_bad_m t1 (c_ra (fst x)) (co_d (snd y)).
Proof.
  unfold cm_bad_is. rewrite !trace_cons. eexists [_], _, _, _. split; [reflexivity|]. split; [reflexivity|]. split; [reflexivity|].
  intros [w [E H]]. injection E as <-. destruct (H 0 ltac:(lia)) as [H1 _]. cbn in H1. discriminate H1.
Qed.
