(** Concrete runs of the interconnects: two masters and two slaves. *)
From Verif Require Import Base BaseFacts FifoModel HsRegModel XbarModel XbarSpec XbarProofs.

Definition conn2 : nat -> nat -> bool := fun _ _ => true.
Definition region2 (s : nat) : nat * nat := match s with 0 => (0, 64) | _ => (64, 64) end.
Lemma region2_ok : regions_ok 8 2 region2.
Proof.
  split.
  - intros s Hs. destruct s as [|[|]]; [| |lia]; (split; [exists 6; reflexivity|split; [reflexivity|cbn; lia]]).
  - intros s s' a Hs Hs'. unfold owns. destruct s as [|[|]], s' as [|[|]]; cbn; try lia.
Qed.
Lemma conn2_shared : shared 2 2 conn2.
Proof. intros m s Hm Hs _. left. exists (1 - s). unfold conn2. repeat split; lia. Qed.
Definition lst2 (w : nat * bool) : bool := snd w.

(** the masters: addresses and ready of r; the slaves: ready of ar, r *)
Definition vof (o : option (nat * nat)) : bool := match o with Some _ => true | None => false end.
Definition dof (o : option (nat * nat)) : nat * nat := match o with Some d => d | None => (0, 0) end.
Definition two {T} (a b : T) (k : nat) : T := match k with 0 => a | _ => b end.
Definition rin (a0 a1 : option (nat * nat)) (rr : bool) (ar : bool) (r0 r1 : option (nat * bool)) : xr_in (nat * bool) nat :=
  mk_xri (two (vof a0) (vof a1)) (two (dof a0) (dof a1)) (fun _ => rr) (fun _ => ar) (two r0 r1).
Notation st_r := (xr_step 2 2 8 4 conn2 region2 lst2).
Definition init_r : xr_st nat := xr_init 2 4 (fun _ => (0, 0)) (fun _ => (fun _ => None, None)) (fun _ => (fun _ => None, None)).
(** both masters read from both slaves *)
Definition run_r : list (xr_in (nat * bool) nat) :=
  [rin (Some (5, 1)) (Some (70, 2)) true true None None;
   rin (Some (71, 3)) (Some (6, 4)) true true None None;
   rin None None true true None None;
   rin None None true true (Some (50, false)) (Some (60, true));
   rin None None true true (Some (51, true)) (Some (61, false));
   rin None None true true (Some (52, true)) (Some (61, false));
   rin None None true true None (Some (62, true));
   rin None None true true None None].

(** checkers of the environment *)
Definition ar_fits_b (nm aw : nat) (i : xr_in (nat * bool) nat) : bool := forallb (fun m => negb (ri_arv i m) || (fst (ri_ar i m) <? 2 ^ aw)) (seq 0 nm).
Lemma ar_fits_sound nm aw is : forallb (ar_fits_b nm aw) is = true -> Forall (ar_fits nm aw) is.
Proof.
  intros H. rewrite forallb_forall in H. apply Forall_forall. intros i Hi m Hm Hv. specialize (H i Hi). unfold ar_fits_b in H. rewrite forallb_forall in H. specialize (H m). rewrite in_seq, Hv in H. apply Nat.ltb_lt, H. lia.
Qed.
Definition map_b (a : nat) : bool := a <? 128.
Lemma map_sound m a : map_b a = true -> mapped 2 conn2 region2 m a.
Proof. unfold map_b, mapped, conn2, owns. intros H. apply Nat.ltb_lt in H. destruct (lt_dec a 64); [exists 0|exists 1]; cbn; lia. Qed.

(** three requests are taken by the slaves before the first word *)
Definition pre_r : list (xr_in (nat * bool) nat) := firstn 3 run_r.
Definition i1_r : xr_in (nat * bool) nat := rin None None true true None None.
Definition i2_r : xr_in (nat * bool) nat := rin None None true true (Some (50, true)) (Some (60, true)).
Definition js_r : list (xr_in (nat * bool) nat) := [rin (Some (5, 1)) (Some (6, 2)) true true None None; rin (Some (7, 1)) (Some (6, 3)) true true None None].
(** the slaves are not ready *)
Definition wait_r : list (xr_in (nat * bool) nat) := [rin (Some (5, 1)) None true false None None; rin None None true false None None; rin None None true true None None].
(** master 0 sends an address of no slave *)
Definition un_r : xr_in (nat * bool) nat := rin (Some (200, 1)) None true true None None.
(** a pair connected only to each other: master 0 and slave 1 *)
Definition conn_x : nat -> nat -> bool := fun m s => match m, s with 0, 1 => true | 1, 0 => true | _, _ => false end.
Lemma conn_x_alone : alone 2 2 conn_x 0 1.
Proof. repeat split; intros [|[|]]; cbn; lia || discriminate || auto. Qed.

(** * writes *)
Definition vo {T} (o : option T) : bool := match o with Some _ => true | None => false end.
Definition dw (o : option (nat * bool)) : nat * bool := match o with Some d => d | None => (0, false) end.
Definition win (a0 a1 : option (nat * nat)) (w0 w1 : option (nat * bool)) (aw : bool) (b0 b1 : option nat) : xw_in (nat * bool) nat nat :=
  mk_xwi (two (vof a0) (vof a1)) (two (dof a0) (dof a1)) (two (vo w0) (vo w1)) (two (dw w0) (dw w1)) (fun _ => true) (fun _ => aw) (fun _ => true) (two b0 b1).
Notation st_w tog := (@xw_step 2 2 8 4 conn2 region2 (nat * bool) nat lst2 nat tog).
Definition init_w : xw_st (nat * bool) nat :=
  let f := fun _ : nat => (fun _ : nat => @None nat, @None nat) in xw_init 2 4 (fun _ => (0, 0)) f f f f (fun _ => (0, false)) (fun _ => None).
Definition aw_fits_b (nm aw : nat) (i : xw_in (nat * bool) nat nat) : bool := forallb (fun m => negb (wi_awv i m) || (fst (wi_aw i m) <? 2 ^ aw)) (seq 0 nm).
Lemma aw_fits_sound nm aw is : forallb (aw_fits_b nm aw) is = true -> Forall (aw_fits nm aw) is.
Proof.
  intros H. rewrite forallb_forall in H. apply Forall_forall. intros i Hi m Hm Hv. specialize (H i Hi). unfold aw_fits_b in H. rewrite forallb_forall in H. specialize (H m). rewrite in_seq, Hv in H. apply Nat.ltb_lt, H. lia.
Qed.
Definition run_w : list (xw_in (nat * bool) nat nat) :=
  [win (Some (5, 1)) (Some (70, 2)) (Some (10, false)) (Some (20, true)) true None None;
   win (Some (71, 3)) (Some (6, 4)) (Some (10, false)) (Some (20, true)) true None None;
   win None None (Some (10, false)) (Some (20, true)) true None None;
   win None None (Some (10, false)) (Some (20, true)) true None None;
   win None None (Some (11, true)) (Some (21, true)) true None None;
   win None None (Some (12, true)) (Some (21, true)) true (Some 30) (Some 40);
   win None None (Some (12, true)) (Some (21, true)) true (Some 30) (Some 40);
   win None None None None true (Some 31) (Some 41);
   win None None None None true (Some 31) (Some 41)].
Definition wait_w : list (xw_in (nat * bool) nat nat) := [win (Some (5, 1)) None None None false None None; win None None None None false None None; win None None None None false None None; win None None None None true None None].
Definition pre_w : list (xw_in (nat * bool) nat nat) :=
  [win (Some (5, 1)) (Some (70, 2)) None None true None None; win None None None None true None None; win None None None None true None None].
Definition i1_w : xw_in (nat * bool) nat nat := win None None (Some (10, true)) (Some (20, true)) true None None.
Definition i2_w : xw_in (nat * bool) nat nat := win None None (Some (10, true)) (Some (20, true)) true (Some 30) (Some 40).
Definition js_w : list (xw_in (nat * bool) nat nat) := [win (Some (5, 1)) (Some (6, 2)) None None true None None; win (Some (7, 1)) (Some (6, 3)) None None true None None].

(** what is visible of the offers on the channel of slave 0 *)
Definition ar_view (c : xr_in (nat * bool) nat * xr_out (nat * bool) nat) : bool * option (nat * nat) * bool := (ro_arv (snd c) 0, ro_ar (snd c) 0, ri_ard (fst c) 0).
Definition aw_view (c : xw_in (nat * bool) nat nat * xw_out (nat * bool) nat nat) : bool * option (nat * nat) * bool := (wo_awv (snd c) 0, wo_aw (snd c) 0, wi_ard (fst c) 0).
Lemma ar_stays_view t k p v' p' r' : ar_stays 0 t -> nth_error (map ar_view t) k = Some (true, p, false) -> nth_error (map ar_view t) (S k) = Some (v', p', r') -> p' = p.
Proof.
  intros H. rewrite !nth_error_map. destruct (nth_error t k) as [c|] eqn:E1; [|discriminate]. destruct (nth_error t (S k)) as [c'|] eqn:E2; [|discriminate]. cbn [option_map]. unfold ar_view. intros X Y. injection X as X1 X2 X3. injection Y as Y1 Y2 Y3. subst. apply (H k c c'); assumption.
Qed.
Lemma aw_stays_view t k p v' p' r' : aw_stays 0 t -> nth_error (map aw_view t) k = Some (true, p, false) -> nth_error (map aw_view t) (S k) = Some (v', p', r') -> p' = p.
Proof.
  intros H. rewrite !nth_error_map. destruct (nth_error t k) as [c|] eqn:E1; [|discriminate]. destruct (nth_error t (S k)) as [c'|] eqn:E2; [|discriminate]. cbn [option_map]. unfold aw_view. intros X Y. injection X as X1 X2 X3. injection Y as Y1 Y2 Y3. subst. apply (H k c c'); assumption.
Qed.
