From Coq Require Import Lia.
From Verif Require Import Base BaseFacts ArithModel ArithSpec.

Lemma fa_sum a b c : bit (fst (full_adder a b c)) + 2 * bit (snd (full_adder a b c)) = bit a + bit b + bit c.
Proof. destruct a, b, c; reflexivity. Qed.

Lemma ripple_sum a : forall b ci, length b = length a ->
  length (fst (ripple a b ci)) = length a /\
  num (fst (ripple a b ci)) + 2 ^ length a * bit (snd (ripple a b ci)) = num a + num b + bit ci.
Proof.
  induction a as [|x a IH]; intros [|y b] ci E; try discriminate E; [cbn; lia|].
  cbn [ripple]. pose proof (fa_sum x y ci) as F. set (f := full_adder x y ci) in *.
  destruct (IH b (snd f)) as [L H]; [injection E as E; exact E|]. cbn [fst snd length].
  split; [rewrite L; reflexivity|]. cbn [num]. fold (bit (fst f)) (bit x) (bit y). rewrite Nat.pow_succ_r'. 
  set (r := ripple a b (snd f)) in *. clearbody r f. nia.
Qed.

Lemma ripple_c_sum a : forall b s c ci co, ripple_c a b s c ci co ->
  num s + 2 ^ length a * bit co = num a + num b + bit ci.
Proof.
  induction a as [|x a IH]; intros b s c ci co [C0 (L1 & L2 & L3) FA CO].
  - destruct b; [|discriminate L2]. destruct s; [|discriminate L3]. cbn [length] in CO. rewrite C0 in CO. injection CO as ->. cbn. lia.
  - destruct b as [|y b]; [discriminate L2|]. destruct s as [|z s]; [discriminate L3|].
    destruct c as [|k c]; [discriminate L1|]. cbn in C0. injection C0 as ->.
    destruct (FA 0 x y ci eq_refl eq_refl eq_refl) as [F1 F2]. cbn [nth_error] in F2.
    assert (F3 : z = fst (full_adder x y ci)) by congruence. cbn [Nat.add nth_error] in F1.
    assert (R : ripple_c a b s c (snd (full_adder x y ci)) co).
    { constructor.
      - destruct c; exact F1.
      - cbn in *. lia.
      - intros i x' y' k' Ha Hb Hc. exact (FA (S i) x' y' k' Ha Hb Hc).
      - cbn [length nth_error] in CO. exact CO. }
    specialize (IH _ _ _ _ _ R). pose proof (fa_sum x y ci) as F. cbn [num length]. rewrite F3. fold (bit (fst (full_adder x y ci))) (bit x) (bit y).
    rewrite Nat.pow_succ_r', <- Nat.mul_assoc. set (f := full_adder x y ci) in *. clearbody f. lia.
Qed.

(** the equations of RippleAdder1/2 have a solution for all operands *)
Lemma ripple_c_ex a : forall b ci, length b = length a -> exists c, ripple_c a b (fst (ripple a b ci)) c ci (snd (ripple a b ci)).
Proof.
  induction a as [|x a IH]; intros [|y b] ci E; try discriminate E.
  - exists [ci]. constructor; cbn; auto. intros [|i] ? ? ? H; discriminate H.
  - injection E as E. destruct (IH b (snd (full_adder x y ci)) E) as [c [C0 (L1 & L2 & L3) FA CO]].
    exists (ci :: c). cbn [ripple fst snd]. constructor.
    + reflexivity.
    + cbn [length]. lia.
    + intros [|i] x' y' k' Ha Hb Hc.
      * cbn in Ha, Hb, Hc. injection Ha as <-. injection Hb as <-. injection Hc as <-. cbn [Nat.add nth_error].
        split; [exact C0|reflexivity].
      * cbn [Nat.add nth_error] in *. apply (FA i x' y' k' Ha Hb Hc).
    + exact CO.
Qed.

(** PID *)
Section Pid.
  Variable n : nat.
  Let W := (2 ^ Z.of_nat n)%Z.

  Definition ycur (is : list pid_in) (back : nat) : Z :=
    if back <=? length is then match nth_error is (length is - back) with Some i => pi_in i | None => 0%Z end else 0%Z.

  Lemma pid_term_app e is js k : k < length is -> pid_term e (is ++ js) k = pid_term e is k.
  Proof.
    intros H. unfold pid_term, y_at. rewrite nth_error_app1 by exact H.
    assert (Y : forall b, nth_error (is ++ js) (k - b) = nth_error is (k - b)) by (intros b; apply nth_error_app1; lia).
    rewrite !Y. reflexivity.
  Qed.
  Lemma pid_u_app e is js k : k <= length is -> pid_u e (is ++ js) k = pid_u e is k.
  Proof.
    induction k as [|k IH]; intros H; [reflexivity|]. cbn [pid_u]. rewrite IH, pid_term_app by lia. reflexivity.
  Qed.

  Lemma pid_inv is : let s := final (pid_step n) pid_init is in
    pd_u s = (pid_u (fun t y => y - t) is (length is) mod W)%Z /\ pd_y0 s = ycur is 1 /\ pd_y1 s = ycur is 2.
  Proof.
    induction is as [|i is IH] using rev_ind; [cbn; repeat split|].
    rewrite final_app, final_cons. change (final (pid_step n) ?x []) with x. set (s := final (pid_step n) pid_init is) in *. cbn zeta in IH. destruct IH as (Hu & H0 & H1).
    rewrite app_length. cbn [length]. replace (length is + 1) with (S (length is)) by lia. cbn [pid_u].
    rewrite pid_u_app by lia.
    assert (N0 : nth_error (is ++ [i]) (length is) = Some i) by (rewrite nth_error_app2, Nat.sub_diag by lia; reflexivity).
    assert (Y0 : y_at (is ++ [i]) (length is) 0 = pi_in i).
    { unfold y_at. cbn [Nat.leb]. rewrite Nat.sub_0_r, N0. reflexivity. }
    assert (Y : forall b, 1 <= b -> y_at (is ++ [i]) (length is) b = ycur is b).
    { intros b Hb. unfold y_at, ycur. destruct (Nat.leb_spec b (length is)); [|reflexivity].
      rewrite nth_error_app1 by lia. reflexivity. }
    cbn [pid_step fst pd_u pd_y0 pd_y1]. split; [|split].
    - unfold pid_term. rewrite N0, Y0, !Y by lia. rewrite Hu, H0, H1. fold W.
      
      match goal with |- ((?a + ?b + ?c + ?d + ?e) mod _)%Z = _ => replace (a + b + c + d + e)%Z with (a + (b + c + d + e))%Z by ring end.
      rewrite Zplus_mod_idemp_l. reflexivity.
    - unfold ycur. rewrite app_length. cbn [length]. replace (1 <=? length is + 1) with true by (symmetry; apply Nat.leb_le; lia).
      replace (length is + 1 - 1) with (length is) by lia. rewrite N0. reflexivity.
    - rewrite H0. unfold ycur. rewrite app_length. cbn [length].
      replace (length is + 1 - 2) with (length is - 1) by lia.
      destruct (Nat.leb_spec 1 (length is)) as [L|L]; destruct (Nat.leb_spec 2 (length is + 1)); try lia.
      rewrite nth_error_app1 by lia. reflexivity.
  Qed.

  Lemma pid_out is i : snd (pid_step n (final (pid_step n) pid_init is) i) = (pid_u (fun t y => y - t) is (length is) mod W)%Z.
  Proof. exact (proj1 (pid_inv is)). Qed.
End Pid.

Definition ex_pid : list pid_in := [mk_pidi 3 10 2 1 1 1; mk_pidi 5 10 2 1 1 1; mk_pidi 8 10 2 (-1) 3 1]%Z.
Lemma pid_bad : exists is i, snd (pid_step 16 (final (pid_step 16) pid_init is) i) <>
  (pid_u (fun target input => target - input) is (length is) mod 2 ^ 16)%Z.
Proof. exists [mk_pidi 3 10 1 0 0 0]%Z, (mk_pidi 0 0 0 0 0 0). vm_compute. discriminate. Qed.

Lemma ripple0_bad : exists a0 a1 a2 a3 ci, exists b, length b = 4 /\
  num (fst (ripple0 a0 a1 a2 a3 ci)) + 2 ^ 4 * bit (snd (ripple0 a0 a1 a2 a3 ci)) <> num [a0; a1; a2; a3] + num b + bit ci.
Proof. exists true, false, true, false, false, [false; false; false; false]. split; [reflexivity|]. vm_compute. discriminate. Qed.
Lemma ripple_wires (a b : list bool) (ci : bool) : length b = length a ->
  (exists s c co, ripple_c a b s c ci co) /\
  forall s c co, ripple_c a b s c ci co -> num s + 2 ^ length a * bit co = num a + num b + bit ci.
Proof.
  intros E. split; [|intros s c co; apply ripple_c_sum].
  destruct (ripple_c_ex a b ci E) as [c H]. eauto.
Qed.
