From Verif Require Import Base BaseFacts FlipModel FlipSpec.

Lemma last_snoc_o {A} (l : list A) (w : option A) d : last (l ++ olist w) d = match w with Some v => v | None => last l d end.
Proof. destruct w; cbn [olist]; [apply last_last|rewrite app_nil_r; reflexivity]. Qed.

Section Reg.
  Context {V : Type}.
  Lemma fr_inv (v0 : V) (is : list (fr_in V)) :
    final fr_step (fr_init v0) is = mk_fr (last (flat_map (fr_reach false) is) v0) (last (flat_map (fr_reach true) is) v0).
  Proof.
    induction is as [|i is IH] using rev_ind; [reflexivity|]. rewrite final_snoc, IH, !flat_map_app. cbn [flat_map]. rewrite !app_nil_r.
    assert (forall r l, last (l ++ fr_reach r i) v0 = match (if Bool.eqb r (fr_sel i) then fr_w1 i else fr_w2 i) with Some v => v | None => last l v0 end) as H
      by (intros r l; apply last_snoc_o). rewrite !H. unfold fr_step. destruct (fr_sel i); reflexivity.
  Qed.
  Lemma fr_run (v0 : V) (is : list (fr_in V)) : fr_law v0 (trace fr_step (fr_init v0) is).
  Proof.
    intros t1 x t2 E. assert (exists is1 i is2, is = is1 ++ i :: is2 /\ t1 = trace fr_step (fr_init v0) is1 /\
      x = (i, snd (fr_step (final fr_step (fr_init v0) is1) i))) as [is1 [i [is2 [-> [-> ->]]]]].
    { revert is x t2 E. generalize (fr_init v0). induction t1 as [|z t1 IH]; intros s is x t2 E; (destruct is as [|i is]; [discriminate|]);
        rewrite trace_cons in E; cbn [app] in E; injection E as E1 E2.
      - exists [], i, is. subst. auto.
      - destruct (IH _ _ _ _ E2) as [is1 [j [is2 [-> [-> ->]]]]]. exists (i :: is1), j, is2. rewrite trace_cons, final_cons, <- E1. auto. }
    assert (map fst (trace fr_step (fr_init v0) is1) = is1) as Em.
    { clear. generalize (fr_init v0). induction is1 as [|j l IH]; intros s; [reflexivity|]. rewrite trace_cons. cbn [map fst]. rewrite IH. reflexivity. }
    rewrite Em, fr_inv. cbn [fst snd]. unfold fr_step. destruct (fr_sel i); split; reflexivity.
  Qed.
End Reg.

(** a cycle of a trace *)
Lemma trace_cut {S I O} (step : S -> I -> S * O) s is t1 x t2 : trace step s is = t1 ++ x :: t2 ->
  exists is1 i is2, is = is1 ++ i :: is2 /\ t1 = trace step s is1 /\ x = (i, snd (step (final step s is1) i)) /\
    t2 = trace step (fst (step (final step s is1) i)) is2.
Proof.
  revert s is x t2. induction t1 as [|z t1 IH]; intros s is x t2 E; (destruct is as [|i is]; [discriminate|]); rewrite trace_cons in E; cbn [app] in E; injection E as E1 E2.
  - exists [], i, is. subst. auto.
  - destruct (IH _ _ _ _ E2) as [is1 [j [is2 [-> [-> [-> ->]]]]]]. exists (i :: is1), j, is2. rewrite trace_cons, final_cons, <- E1. auto.
Qed.

(** FlipCntr *)
Section Cntr.
  Variable W : nat.
  Notation step := (fc_step W).
  (** the register which is incremented, the one of the user *)
  Definition fcur (s : fc_st) : nat := if fc_flip s then fr_b (fc_reg s) else fr_a (fc_reg s).
  Definition fusr (s : fc_st) : nat := if fc_flip s then fr_a (fc_reg s) else fr_b (fc_reg s).
  Lemma fc_out s i : snd (step s i) = fusr s.
  Proof. unfold fc_step, fusr, fr_step. cbn [fr_sel fr_w1 fr_w2]. destruct (fc_flip s); reflexivity. Qed.
  Lemma fc_cur s i : let c' := if fc_incr i then winc W (fcur s) else fcur s in let u' := match fc_w i with Some v => v | None => fusr s end in
    fcur (fst (step s i)) = (if fc_do i then u' else c') /\ fusr (fst (step s i)) = (if fc_do i then c' else u').
  Proof.
    unfold fc_step, fcur, fusr, fr_step. cbn [fr_sel fr_w1 fr_w2]. destruct (fc_flip s), (fc_do i), (fc_incr i), (fc_w i); cbn; auto.
  Qed.
  Lemma fc_noflip s is : no_flip (trace step s is) ->
    fcur (final step s is) mod 2 ^ W = (fcur s + fc_incrs (trace step s is)) mod 2 ^ W /\ fusr (final step s is) = last (fc_writes (trace step s is)) (fusr s).
  Proof.
    induction is as [|i is IH] using rev_ind; intros H.
    - cbn. rewrite Nat.add_0_r. auto.
    - rewrite trace_snoc in H. apply Forall_app in H. destruct H as [H1 H2]. inversion_clear H2 as [|? ? H3 _]. cbn [fst] in H3.
      destruct (IH H1) as [A B]. rewrite final_snoc, trace_snoc. destruct (fc_cur (final step s is) i) as [C D]. rewrite H3 in C, D. rewrite C, D. split.
      + unfold fc_incrs in *. rewrite filter_app, app_length. cbn [filter fst]. destruct (fc_incr i); cbn [length]; [|rewrite Nat.add_0_r; exact A].
        unfold winc, wrap. rewrite Nat.mod_mod by apply Nat.pow_nonzero, Nat.neq_succ_0. rewrite <- Nat.add_mod_idemp_l, A, Nat.add_mod_idemp_l by (apply Nat.pow_nonzero; lia). f_equal. lia.
      + unfold fc_writes. rewrite flat_map_app. cbn [flat_map fst]. rewrite app_nil_r, last_snoc_o. unfold fc_writes in B. rewrite B. reflexivity.
  Qed.
  Lemma fc_small s is : fcur s < 2 ^ W -> fusr s < 2 ^ W -> Forall (fun i => forall v, fc_w i = Some v -> v < 2 ^ W) is ->
    fcur (final step s is) < 2 ^ W /\ fusr (final step s is) < 2 ^ W.
  Proof.
    revert s. induction is as [|i is IH]; intros s Hc Hu H; [auto|]. inversion_clear H as [|? ? H1 H2]. rewrite final_cons.
    destruct (fc_cur s i) as [A B]. cbv zeta in A, B.
    assert ((if fc_incr i then winc W (fcur s) else fcur s) < 2 ^ W) as L1 by (destruct (fc_incr i); [apply wrap_lt|exact Hc]).
    assert (match fc_w i with Some v => v | None => fusr s end < 2 ^ W) as L2 by (destruct (fc_w i) eqn:E; [apply H1; reflexivity|exact Hu]).
    apply IH; [rewrite A|rewrite B|exact H2]; destruct (fc_do i); assumption.
  Qed.
  Lemma fc_run is : Forall (fun i => forall v, fc_w i = Some v -> v < 2 ^ W) is -> fc_law W (trace step fc_init is).
  Proof.
    intros Hw t0 f1 p f2 q y t3 E D1 N1 D2 N2.
    destruct (trace_cut _ _ _ _ _ _ E) as [is0 [i1 [r1 [-> [-> [-> E1]]]]]]. clear E. symmetry in E1.
    destruct (trace_cut _ _ _ _ _ _ E1) as [is1 [i2 [r2 [-> [-> [-> E2]]]]]]. clear E1. symmetry in E2.
    destruct (trace_cut _ _ _ _ _ _ E2) as [is2 [i3 [r3 [-> [-> [-> E3]]]]]]. clear E2 E3.
    cbn [fst snd] in D1, D2 |- *. rewrite !fc_out.
    set (s1 := final step fc_init is0) in *.
    destruct (fc_cur s1 i1) as [A1 B1]. rewrite D1 in A1, B1. set (s2 := fst (step s1 i1)) in *.
    destruct (fc_noflip _ _ N1) as [A2 B2]. set (s3 := final step s2 is1) in *.
    destruct (fc_cur s3 i2) as [A3 B3]. rewrite D2 in A3, B3. set (s4 := fst (step s3 i2)) in *.
    destruct (fc_noflip _ _ N2) as [A4 B4]. rewrite B4, B3.
    assert (fcur s3 < 2 ^ W) as L3.
    { unfold s3, s2, s1. rewrite <- final_snoc, <- final_app. apply fc_small; [cbn; apply pow2_pos|cbn; apply pow2_pos|].
      rewrite <- app_assoc. rewrite !Forall_app in *. inversion_clear Hw as [W0 W1]. inversion_clear W1 as [|? ? X1 X2]. apply Forall_app in X2. destruct X2 as [X2 _]. auto. }
    f_equal. rewrite (Nat.mod_small _ _ L3) in A2.
    assert (last (fc_writes [(i1, fusr s1)]) (fusr s1) = fcur s2) as EV.
    { rewrite A1. unfold fc_writes. cbn [flat_map fst]. rewrite app_nil_r. destruct (fc_w i1); reflexivity. }
    rewrite EV. unfold fc_incrs in *. rewrite filter_app, app_length. cbn [filter fst]. rewrite A2.
    destruct (fc_incr i2); cbn [length]; [|rewrite Nat.add_0_r; reflexivity].
    unfold winc, wrap. rewrite Nat.add_mod_idemp_l by (apply Nat.pow_nonzero; lia). f_equal. lia.
  Qed.
End Cntr.

(** FlipRam *)
Section Ram.
  Context {A : Type}.
  Notation step := (@fm_step A).
  Lemma fm_inv m0 m1 is a : fm_m0 (final step (fm_init m0 m1) is) a = last (flat_map (fm_wr false a) (trace step (fm_init m0 m1) is)) (m0 a) /\
    fm_m1 (final step (fm_init m0 m1) is) a = last (flat_map (fm_wr true a) (trace step (fm_init m0 m1) is)) (m1 a).
  Proof.
    induction is as [|i is [IH0 IH1]] using rev_ind; [auto|]. rewrite final_snoc, trace_snoc, !flat_map_app. cbn [flat_map]. rewrite !app_nil_r.
    set (t := trace step (fm_init m0 m1) is) in *. set (s := final step (fm_init m0 m1) is) in *. unfold fm_step. cbn [fst fm_m0 fm_m1].
    assert (forall (l : list A) m p d, m a = last l d -> fm_mem m p a = last (l ++ (if fm_en p && fm_we p && (fm_addr p =? a) then [fm_din p] else [])) d) as H.
    { intros l m p d Hm. unfold fm_mem. destruct (fm_en p && fm_we p); cbn [andb]; [|rewrite app_nil_r; exact Hm]. unfold upd. rewrite (Nat.eqb_sym a).
      destruct (fm_addr p =? a); [rewrite last_last; reflexivity|rewrite app_nil_r; exact Hm]. }
    split; (etransitivity; [apply H; eassumption|]); unfold fm_wr, fm_conn; cbn [fst]; destruct (fm_sel i); reflexivity.
  Qed.
  Lemma fm_run m0 m1 is t1 x y t2 : trace step (fm_init m0 m1) is = t1 ++ x :: y :: t2 -> fm_sel (fst y) = fm_sel (fst x) -> fm_read_ok m0 m1 t1 x y.
  Proof.
    intros E Hs. destruct (trace_cut _ _ _ _ _ _ E) as [is1 [i [r [-> [-> [-> E1]]]]]]. destruct r as [|j r]; [discriminate|]. rewrite trace_cons in E1. injection E1 as Ey _.
    rewrite Ey in *. cbn [fst snd] in *. pose proof (fm_inv m0 m1 is1) as H. set (t := trace step (fm_init m0 m1) is1) in *. set (s := final step (fm_init m0 m1) is1) in *.
    unfold fm_read_ok, fm_step. cbn [fst snd fm_d0 fm_d1]. rewrite Hs.
    destruct (fm_sel i); cbn [negb fst snd]; split; intros En; cbv zeta; unfold fm_dout; rewrite En; f_equal; apply H.
  Qed.
End Ram.

Definition fm_x : fm_in nat := mk_fmi true (mk_fmp true false 3 0) (mk_fmp false false 0 0).
Definition fm_y : fm_in nat := mk_fmi false (mk_fmp false false 0 0) (mk_fmp true true 3 9).
Lemma fm_flip_bad : exists (m0 m1 : nat -> nat) is t1 x y t2, trace fm_step (fm_init m0 m1) is = t1 ++ x :: y :: t2 /\ ~ fm_read_ok m0 m1 t1 x y.
Proof.
  exists (fun _ => 1), (fun _ => 2), [fm_x; fm_y], [], (fm_x, (None, None)), (fm_y, (None, Some 1)), []. split; [reflexivity|].
  intros [H _]. specialize (H eq_refl). discriminate H.
Qed.
