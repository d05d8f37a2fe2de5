From Verif Require Import Base BaseFacts RamXorModel RamXorSpec.
Local Open Scope N_scope.

Lemma xor_ext n f g : (forall k, (k < n)%nat -> f k = g k) -> xor_all n f = xor_all n g.
Proof. induction n as [|n IH]; intros H; [reflexivity|]. cbn [xor_all]. rewrite IH, H by (try lia; intros; apply H; lia). reflexivity. Qed.
Lemma xor_split n f i : (i < n)%nat -> xor_all n f = N.lxor (f i) (xor_all n (fun j => if (j =? i)%nat then 0 else f j)).
Proof.
  induction n as [|n IH]; intros H; [lia|]. cbn [xor_all]. destruct (Nat.eqb_spec n i) as [->|E].
  - rewrite N.lxor_0_r, N.lxor_comm. f_equal. apply xor_ext. intros k Hk. destruct (Nat.eqb_spec k i); [lia|reflexivity].
  - rewrite IH by lia. apply N.lxor_assoc.
Qed.
Lemma xor_zero n : xor_all n (fun _ => 0) = 0.
Proof. induction n as [|n IH]; [reflexivity|]. cbn [xor_all]. rewrite IH. reflexivity. Qed.

Section P.
  Variable W : nat.
  Notation step := (x_step W).
  Notation writes := (x_writes W).

  (** at the start of a cycle: [p] the previous cycle, [h] the cycles before it *)
  Record inv (h : list x_in) (p : x_in) (s : x_st) : Prop := {
    i_bank : forall a, xor_all W (fun k => x_bank s k a) = x_content W h a;
    i_wd : forall i j, (i < W)%nat -> (j < W)%nat -> i <> j -> x_en s i = true -> x_wdout s i j = x_bank s j (x_addr s i);
    i_regs : forall k, (k < W)%nat -> x_en s k = xw_en (xi_w p k) /\ x_addr s k = xw_addr (xi_w p k) /\ x_data s k = xw_din (xi_w p k) }.

  Lemma pending_xor h p s i : inv h p s -> (i < W)%nat -> x_en s i = true ->
    xored W s i = N.lxor (x_data s i) (xor_all W (fun j => if (j =? i)%nat then 0 else x_bank s j (x_addr s i))).
  Proof.
    intros I Hi He. unfold xored. f_equal. apply xor_ext. intros k Hk. destruct (Nat.eqb_spec k i) as [_|E]; [reflexivity|].
    apply (i_wd _ _ _ I); auto.
  Qed.

  (** effect of the pending writes [p] on the xor of the banks *)
  Lemma commit h p s a : inv h p s -> no_clash W p ->
    xor_all W (fun k => if x_en s k && (x_addr s k =? a)%nat then xored W s k else x_bank s k a) = mem_after W p a (x_content W h a).
  Proof.
    intros I Hc. unfold mem_after.
    destruct (find (fun k => xw_en (xi_w p k) && (xw_addr (xi_w p k) =? a)%nat) (seq 0 W)) as [i|] eqn:F.
    - apply find_some in F. destruct F as [Hi F]. apply in_seq in Hi. apply andb_prop in F. destruct F as [F1 F2]. apply Nat.eqb_eq in F2.
      assert (i < W)%nat as Hi' by lia. destruct (i_regs _ _ _ I i Hi') as (R1 & R2 & R3).
      rewrite (xor_split W _ i Hi'). rewrite R1, F1, R2, F2, Nat.eqb_refl. cbn [andb].
      rewrite (pending_xor h p s i I Hi') by (rewrite R1; exact F1). rewrite R3, R2, F2.
      rewrite N.lxor_assoc. rewrite (xor_ext W (fun j => if (j =? i)%nat then 0 else if x_en s j && (x_addr s j =? a)%nat then xored W s j else x_bank s j a)
        (fun j => if (j =? i)%nat then 0 else x_bank s j a)).
      + rewrite N.lxor_nilpotent, N.lxor_0_r. reflexivity.
      + intros k Hk. destruct (Nat.eqb_spec k i) as [_|E]; [reflexivity|].
        destruct (i_regs _ _ _ I k Hk) as (Q1 & Q2 & _). destruct (x_en s k && (x_addr s k =? a)%nat) eqn:G; [|reflexivity].
        exfalso. apply E. apply andb_prop in G. destruct G as [G1 G2]. apply Nat.eqb_eq in G2. apply (Hc k i a); repeat split; auto; congruence.
    - rewrite <- (i_bank _ _ _ I a). apply xor_ext. intros k Hk. destruct (i_regs _ _ _ I k Hk) as (Q1 & Q2 & _).
      pose proof (find_none _ _ F k) as Hn. cbv beta in Hn. rewrite Q1, Q2, Hn by (apply in_seq; lia). reflexivity.
  Qed.

  Lemma inv_step h p s c : inv h p s -> no_clash W p -> no_clash2 W p c -> inv (h ++ [p]) c (fst (step s c)).
  Proof.
    intros I Hc H2. split; cbn [step fst x_bank x_wdout x_en x_addr x_data].
    - intros a. rewrite (commit h p s a I Hc). unfold x_content. rewrite fold_left_app. reflexivity.
    - intros i j Hi Hj Hij He. rewrite He.
      destruct (x_en s j && (x_addr s j =? xw_addr (xi_w c i))%nat) eqn:G; [|reflexivity].
      exfalso. apply Hij. apply andb_prop in G. destruct G as [G1 G2]. apply Nat.eqb_eq in G2.
      destruct (i_regs _ _ _ I j Hj) as (Q1 & Q2 & _). symmetry. apply (H2 j i (xw_addr (xi_w c i))); repeat split; auto; congruence.
    - intros k Hk. auto.
  Qed.

  Lemma disc_tail l c : disciplined W (c :: l) -> disciplined W l.
  Proof. intros (_ & _ & H). exact H. Qed.

  Lemma inv_run : forall h h0 p s, inv h0 p s -> disciplined W (p :: h) ->
    match rev h with [] => inv h0 p (final step s h) | c :: _ => inv (h0 ++ removelast (p :: h)) c (final step s h) end.
  Proof.
    induction h as [|c h IH]; intros h0 p s I D.
    - exact I.
    - pose proof (inv_step h0 p s c I (proj1 D) (proj1 (proj2 D))) as I'. specialize (IH (h0 ++ [p]) c (fst (step s c)) I' (disc_tail _ _ D)).
      rewrite final_cons. destruct h as [|d h].
      + exact IH.
      + change (rev (c :: d :: h)) with (rev (d :: h) ++ [c]).
        destruct (rev (d :: h)) as [|q r] eqn:ER.
        * apply (f_equal (@length x_in)) in ER. rewrite rev_length in ER. discriminate.
        * cbn [app]. rewrite <- app_assoc in IH. exact IH.
  Qed.

  Definition idle : x_in := mk_xi (fun _ => mk_xw false 0%nat 0) (fun _ => mk_xr false 0%nat).
  Lemma inv_init wd rd a d : inv [] (mk_xi (fun k => mk_xw false (a k) (d k)) (fun _ => mk_xr false 0%nat)) (x_init wd rd a d).
  Proof. split; cbn; intros; [apply xor_zero|discriminate|auto]. Qed.

  Lemma content_nowrite h c a : (forall k, ~ writes c k a) -> x_content W (h ++ [c]) a = x_content W h a.
  Proof.
    intros H. unfold x_content. rewrite fold_left_app. cbn [fold_left]. unfold mem_after.
    destruct (find _ (seq 0 W)) as [i|] eqn:F; [|reflexivity]. exfalso. apply find_some in F. destruct F as [F1 F2]. apply in_seq in F1.
    apply andb_prop in F2. destruct F2 as [F2 F3]. apply Nat.eqb_eq in F3. apply (H i). repeat split; auto; lia.
  Qed.

  (** read in cycle [c] (state [s], previous cycle [p]), address pins [c2] in the next cycle *)
  Lemma read_ok h p s c c2 r a : inv h p s -> no_clash W p -> no_clash W c -> no_clash2 W p c ->
    xr_en (xi_r c r) = true -> xr_addr (xi_r c r) = a -> (forall k, ~ writes p k a) ->
    (xr_addr (xi_r c2 r) = a -> snd (step (fst (step s c)) c2) r = x_content W (h ++ [p; c]) a) /\
    ((forall k, ~ writes c k (xr_addr (xi_r c2 r))) -> snd (step (fst (step s c)) c2) r = x_content W (h ++ [p]) a).
  Proof.
    intros I Hp Hc H2 He Ha Hn. pose proof (inv_step h p s c I Hp H2) as I'. set (s1 := fst (step s c)) in *.
    change (snd (step s1 c2) r) with (x_dout W s1 c2 r).
    assert (forall k, (k < W)%nat -> x_rdout s1 r k = x_bank s1 k a) as Hr.
    { intros k Hk. unfold s1. cbn [step fst x_rdout x_bank]. rewrite He, Ha.
      destruct (x_en s k && (x_addr s k =? a)%nat) eqn:G; [|reflexivity]. exfalso. apply (Hn k).
      destruct (i_regs _ _ _ I k Hk) as (Q1 & Q2 & _). apply andb_prop in G. destruct G as [G1 G2]. apply Nat.eqb_eq in G2.
      repeat split; auto; congruence. }
    split.
    - intros Ea. unfold x_dout. rewrite Ea. rewrite (xor_ext W _ (fun k => if x_en s1 k && (x_addr s1 k =? a)%nat then xored W s1 k else x_bank s1 k a)).
      + rewrite (commit _ _ _ a I' Hc). unfold x_content. rewrite !fold_left_app. reflexivity.
      + intros k Hk. rewrite Hr by exact Hk. reflexivity.
    - intros Hn2. rewrite <- (i_bank _ _ _ I' a). unfold x_dout. apply xor_ext. intros k Hk.
      destruct (i_regs _ _ _ I' k Hk) as (Q1 & Q2 & _).
      destruct (x_en s1 k && (x_addr s1 k =? xr_addr (xi_r c2 r))%nat) eqn:G; [|apply Hr; exact Hk].
      exfalso. apply (Hn2 k). apply andb_prop in G. destruct G as [G1 G2]. apply Nat.eqb_eq in G2. repeat split; auto; congruence.
  Qed.
End P.

Lemma disc_app W l1 l2 : disciplined W (l1 ++ l2) -> disciplined W l1 /\ disciplined W l2.
Proof.
  induction l1 as [|c l1 IH]; [intros H; split; [exact I|exact H]|]. cbn [app]. intros (H1 & H2 & H3). destruct (IH H3) as [I1 I2].
  split; [|exact I2]. split; [exact H1|]. split; [|exact I1]. destruct l1; [exact I|exact H2].
Qed.

Lemma c34 : forall (W : nat) (wd rd : nat -> nat -> N) (ar : nat -> nat) (dr : nat -> N) (h : list x_in) (p c c2 : x_in) (r a : nat),
  disciplined W (h ++ [p; c]) -> xr_en (xi_r c r) = true -> xr_addr (xi_r c r) = a -> (forall k, ~ x_writes W p k a) ->
  let dout := snd (x_step W (final (x_step W) (x_init wd rd ar dr) (h ++ [p; c])) c2) r in
  (xr_addr (xi_r c2 r) = a -> dout = x_content W (h ++ [p; c]) a) /\
  ((forall k, ~ x_writes W c k (xr_addr (xi_r c2 r))) -> dout = x_content W (h ++ [p]) a).
Proof.
  intros W wd rd ar dr h p c c2 r a D He Ha Hn dout. unfold dout. clear dout.
  replace (h ++ [p; c]) with ((h ++ [p]) ++ [c]) by (rewrite <- app_assoc; reflexivity). rewrite final_snoc.
  replace ((h ++ [p]) ++ [c]) with (h ++ [p; c]) by (rewrite <- app_assoc; reflexivity).
  set (p0 := mk_xi (fun k => mk_xw false (ar k) (dr k)) (fun _ => mk_xr false 0%nat)).
  assert (disciplined W (p0 :: h ++ [p])) as D0.
  { replace (h ++ [p; c]) with ((h ++ [p]) ++ [c]) in D by (rewrite <- app_assoc; reflexivity). apply disc_app in D. destruct D as [D _].
    split; [|split; [|exact D]].
    - intros k j b (_ & X & _). discriminate.
    - destruct (h ++ [p]); [exact I|]. intros k j b (_ & X & _). discriminate. }
  pose proof (inv_run W (h ++ [p]) [] p0 (x_init wd rd ar dr) (inv_init W wd rd ar dr) D0) as IV.
  rewrite rev_unit in IV. cbn [app] in IV.
  assert (removelast (p0 :: h ++ [p]) = p0 :: h) as ER by (change (p0 :: h ++ [p]) with ((p0 :: h) ++ [p]); apply removelast_last).
  rewrite ER in IV. apply disc_app in D. destruct D as [_ (D1 & D2 & D3 & _)].
  assert (forall l b, x_content W (p0 :: l) b = x_content W l b) as Ep.
  { intros l b. unfold x_content. cbn [fold_left]. f_equal. unfold mem_after.
    destruct (find _ _) as [k|] eqn:F; [|reflexivity]. apply find_some in F. destruct F as [_ F]. discriminate. }
  destruct (read_ok W _ _ _ c c2 r a IV D1 D3 D2 He Ha Hn) as [R1 R2]. split.
  - intros E. rewrite R1 by exact E. apply Ep.
  - intros E. rewrite R2 by exact E. apply Ep.
Qed.

(** * Examples *)
Definition w2 (e0 : bool) (a0 : nat) (d0 : N) (e1 : bool) (a1 : nat) (d1 : N) (re : bool) (ra : nat) : x_in :=
  mk_xi (fun k => match k with O => mk_xw e0 a0 d0 | _ => mk_xw e1 a1 d1 end) (fun _ => mk_xr re ra).
Definition x0 : x_st := x_init (fun _ _ => 0) (fun _ _ => 0) (fun _ => 0%nat) (fun _ => 0).
Definition ex34_h : list x_in := [w2 true 3 7 true 4 8 false 0; w2 true 5 1 true 6 2 false 0; w2 true 4 9 true 3 10 false 0].
Definition ex34_p : x_in := w2 false 0 0 false 0 0 false 0.
Definition ex34_c : x_in := w2 true 6 5 false 0 0 true 3.

Ltac clash := intros k j a (K1 & K2 & K3) (J1 & J2 & J3); destruct k as [|[|k]], j as [|[|j]]; cbn in *; lia || congruence || discriminate.
Lemma ex34_disc : disciplined 2 (ex34_h ++ [ex34_p; ex34_c]).
Proof. cbn [ex34_h app disciplined]. repeat split; clash. Qed.
Lemma ex34_now : forall k, ~ x_writes 2 ex34_p k 3.
Proof. intros k (_ & H & _). destruct k as [|k]; discriminate. Qed.

(** a read one cycle after the write: old content *)
Lemma c34_stale : exists (h : list x_in) (c c2 : x_in),
  disciplined 2 (h ++ [c]) /\ xr_en (xi_r c 0) = true /\ xr_addr (xi_r c2 0) = xr_addr (xi_r c 0) /\
  snd (x_step 2 (final (x_step 2) x0 (h ++ [c])) c2) 0%nat <> x_content 2 h (xr_addr (xi_r c 0)).
Proof.
  exists [w2 true 3 7 false 0 0 false 0], (w2 false 0 0 false 0 0 true 3), (w2 false 0 0 false 0 0 true 3).
  split; [cbn [app disciplined]; repeat split; clash|]. repeat split; vm_compute; discriminate.
Qed.
(** two ports write the address in successive cycles: the memory stays wrong *)
Lemma c34_corrupt : exists (h : list x_in) (c : x_in),
  (forall q, In q h -> no_clash 2 q) /\ xr_en (xi_r c 0) = true /\
  forall n, (0 < n)%nat -> snd (x_step 2 (final (x_step 2) x0 (h ++ repeat c (S n))) c) 0%nat = 15 /\ x_content 2 (h ++ repeat c (S n)) (xr_addr (xi_r c 0)) = 8.
Proof.
  exists [w2 true 3 7 false 0 0 false 0; w2 false 0 0 true 3 8 false 0], (w2 false 0 0 false 0 0 true 3).
  split; [intros q [<-|[<-|[]]]; clash|]. split; [reflexivity|]. intros n Hn.
  set (h := [_; _]). set (c := w2 false 0 0 false 0 0 true 3).
  replace (S n) with (2 + (n - 1))%nat by lia. generalize (n - 1)%nat. clear. intros n.
  assert (forall m s, x_bank s 0%nat 3%nat = 7 -> x_bank s 1%nat 3%nat = 8 -> x_rdout s 0%nat 0%nat = 7 -> x_rdout s 0%nat 1%nat = 8 -> x_en s 0%nat = false -> x_en s 1%nat = false ->
    snd (x_step 2 (final (x_step 2) s (repeat c m)) c) 0%nat = 15) as H.
  { induction m as [|m IH]; intros s H1 H2 H3 H4 H5 H6.
    - unfold final. cbn [repeat run fst]. cbn [x_step snd x_dout xor_all]. rewrite H3, H4, H5, H6. reflexivity.
    - cbn [repeat]. rewrite final_cons. apply IH; cbn; rewrite ?H5, ?H6, ?H1, ?H2; reflexivity. }
  assert (forall m, x_content 2 (h ++ repeat c m) 3 = 8) as H'.
  { intros m. unfold x_content. rewrite fold_left_app. replace (fold_left _ h 0) with 8 by (vm_compute; reflexivity).
    induction m as [|m IH]; [reflexivity|]. cbn [repeat fold_left]. exact IH. }
  split; [|apply H']. rewrite repeat_app, app_assoc, final_app. apply H; vm_compute; reflexivity.
Qed.
(** the address pins of the next cycle redirect the bypass *)
Lemma c34_misdirect : exists (h : list x_in) (c c2 : x_in),
  disciplined 2 (h ++ [c; c2]) /\ (forall k, ~ x_writes 2 c k (xr_addr (xi_r c 0))) /\ xr_en (xi_r c 0) = true /\
  (length h = 4)%nat /\ (forall q k, In q (skipn 1 h) -> ~ x_writes 2 q k (xr_addr (xi_r c 0))) /\
  snd (x_step 2 (final (x_step 2) x0 (h ++ [c])) c2) 0%nat <> x_content 2 (h ++ [c]) (xr_addr (xi_r c 0)).
Proof.
  exists [w2 true 3 7 false 0 0 false 0; ex34_p; ex34_p; ex34_p], (w2 true 4 9 false 0 0 true 3), (w2 false 0 0 false 0 0 true 4).
  split; [cbn [app disciplined]; repeat split; clash|].
  split; [intros k (K1 & K2 & K3); destruct k; cbn in *; discriminate|]. split; [reflexivity|]. split; [reflexivity|].
  split; [intros q k [<-|[<-|[<-|[]]]] (K1 & K2 & K3); destruct k; discriminate|]. vm_compute. discriminate.
Qed.
