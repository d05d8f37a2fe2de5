From Verif Require Import Base BaseFacts RmrModel RmrSpec.
Local Open Scope N_scope.

Lemma beats_app : forall a b, beats (a ++ b) = beats a ++ beats b.
Proof. induction a as [|[x|] a IH]; intros b; cbn; rewrite ?IH; reflexivity. Qed.
(** the input register *)
Lemma delay : forall l x s z, outs rx_step (x, s) (l ++ [z]) = outs rx_core s (x :: l) /\ snd (final rx_step (x, s) (l ++ [z])) = final rx_core s (x :: l).
Proof.
  induction l as [|y l IH]; intros x s z.
  - cbn [app]. rewrite !outs_cons, !outs_nil, !final_cons, !final_nil. unfold rx_step. cbn [fst snd]. destruct (rx_core s x). auto.
  - cbn [app]. rewrite (outs_cons rx_step), (final_cons rx_step), (outs_cons rx_core s x), (final_cons rx_core s x). 
    assert (E : rx_step (x, s) y = ((y, fst (rx_core s x)), snd (rx_core s x))) by (unfold rx_step; cbn [fst snd]; destruct (rx_core s x); reflexivity). rewrite E.
    destruct (rx_core s x) as (c, o). cbn [fst snd]. destruct (IH y c z) as (H1 & H2). rewrite H1, H2. auto.
Qed.

Definition idle (s : rxs) : Prop := x_st s = Skip0 /\ x_r1v s = false.
Definition pre (n : N) (s : rxs) : Prop := x_st s = Pre /\ x_cn s = 0%nat /\ x_pc s = n /\ x_r1v s = false.
Definition dat (x : option N) (s : rxs) : Prop := x_st s = Data /\ x_cn s = 0%nat /\ match x with Some b => x_r1v s = true /\ x_r1 s = b | None => x_r1v s = false end.
Definition err (s : rxs) : Prop := x_st s = Err.
(** [l] leads from s with the transfers bs to a state of P *)
Definition go (s : rxs) (l : list (N * bool)) (bs : list beat) (P : rxs -> Prop) : Prop := beats (outs rx_core s l) = bs /\ P (final rx_core s l).
Lemma go_app : forall s a b x y P Q, go s a x P -> (forall s', P s' -> go s' b y Q) -> go s (a ++ b) (x ++ y) Q.
Proof.
  intros s a b x y P Q (H1 & H2) H. destruct (H _ H2) as (H3 & H4). unfold go. rewrite outs_app, beats_app, final_app, H1, H3. auto.
Qed.
Lemma go_nil : forall s (P : rxs -> Prop), P s -> go s [] [] P.
Proof. intros s P H. split; [reflexivity|exact H]. Qed.

Lemma pairs_val : forall b, b < 256 -> (b / 64) mod 4 * 64 + (b / 16) mod 4 * 16 + (b / 4) mod 4 * 4 + b mod 4 = b.
Proof.
  intros b H.
  assert (E1 : b / 16 = b / 4 / 4) by (rewrite N.div_div; [reflexivity|discriminate|discriminate]).
  assert (E2 : b / 64 = b / 4 / 4 / 4) by (rewrite !N.div_div; [reflexivity|discriminate|discriminate|discriminate|discriminate]).
  rewrite E1, E2. pose proof (N.div_mod b 4 ltac:(discriminate)). pose proof (N.div_mod (b / 4) 4 ltac:(discriminate)). pose proof (N.div_mod (b / 4 / 4) 4 ltac:(discriminate)).
  assert (E3 : (b / 4 / 4 / 4) mod 4 = b / 4 / 4 / 4).
  { apply N.mod_small. rewrite <- E2. apply N.div_lt_upper_bound; [discriminate|exact H]. }
  rewrite E3. lia.
Qed.
Ltac runs := unfold go, final, outs; cbn [run rx_core st_next cn_next pc_next r0_next r1v_next rx_out last_in_B x_st x_cn x_pc x_r0 x_r1 x_r1v fst snd Nat.eqb Nat.modulo Nat.divmod Nat.add Nat.sub andb negb shift0 actual beats on off map pairs app].

Lemma quiet_go : forall s d v, idle s -> v = false \/ d = 0 -> go s [(d, v)] [] idle.
Proof.
  intros [st cn pc r0 r1 r1v] d v (H1 & H2) H. cbn in H1, H2. subst st r1v. unfold go, final, outs, idle. cbn. destruct H as [H|H]; subst; cbn; [auto|].
  rewrite andb_false_r. auto.
Qed.
Lemma byte_data : forall s b x, dat x s -> b < 256 -> go s (on (pairs b)) (match x with Some y => [(Some y, false, false)] | None => [] end) (dat (Some b)).
Proof.
  intros [st cn pc r0 r1 r1v] b x (H1 & H2 & H3) Hb. cbn in H1, H2, H3. subst st cn. destruct r0 as (((a0, a1), a2), a3).
  destruct x as [y|]; [destruct H3 as (H3 & H4); subst r1v y|subst r1v]; unfold go, final, outs, dat; cbn -[N.div N.modulo N.mul N.add]; rewrite pairs_val by exact Hb; repeat split; reflexivity.
Qed.
Lemma end_data : forall s x g0 g1 g2 g3, dat x s -> go s (off [g0; g1; g2; g3]) (match x with Some y => [(Some y, false, true)] | None => [] end) idle.
Proof.
  intros [st cn pc r0 r1 r1v] x g0 g1 g2 g3 (H1 & H2 & H3). cbn in H1, H2, H3. subst st cn. destruct r0 as (((a0, a1), a2), a3).
  destruct x as [y|]; [destruct H3 as (H3 & H4); subst r1v y|subst r1v]; unfold go, final, outs, idle; cbn -[N.div N.modulo N.mul N.add]; repeat split; reflexivity.
Qed.
Lemma data_go : forall bs s x g0 g1 g2 g3, dat x s -> Forall (fun b => b < 256) bs ->
  go s (on (flat_map pairs bs) ++ off [g0; g1; g2; g3]) (frame (match x with Some y => y :: bs | None => bs end)) idle.
Proof.
  induction bs as [|b bs IH]; intros s x g0 g1 g2 g3 Hd Hf.
  - change (on (flat_map pairs []) ++ off [g0; g1; g2; g3]) with (off [g0; g1; g2; g3]). destruct x; apply (end_data s _ g0 g1 g2 g3 Hd).
  - inversion Hf as [|? ? Hb Hf']; subst. change (flat_map pairs (b :: bs)) with (pairs b ++ flat_map pairs bs). unfold on. rewrite map_app, <- app_assoc. fold (on (pairs b)). fold (on (flat_map pairs bs)).
    replace (frame (match x with Some y => y :: b :: bs | None => b :: bs end)) with ((match x with Some y => [(Some y, false, false)] | None => [] end) ++ frame (b :: bs)) by (destruct x; reflexivity).
    apply (go_app _ _ _ _ _ (dat (Some b))); [apply byte_data; assumption|]. intros s' H'. apply (IH s' (Some b)); assumption.
Qed.
(** the first byte of the preamble *)
Lemma first_byte : forall s b, idle s -> b < 256 -> b mod 4 <> 0 -> go s (on (pairs b)) [] (fun s' => if b =? 85 then pre 6 s' else err s').
Proof.
  intros [st cn pc r0 r1 r1v] b (H1 & H2) Hb Hn. cbn in H1, H2. subst st r1v. apply N.eqb_neq in Hn.
  unfold go, final, outs. cbn -[N.div N.modulo N.mul N.add N.eqb]. rewrite Hn. cbn -[N.div N.modulo N.mul N.add N.eqb]. rewrite pairs_val by exact Hb. unfold PREAMBLE_1B.
  change (7 =? 0) with false. destruct (b =? 85); cbn; repeat split; reflexivity.
Qed.
Lemma pre_byte : forall s b n, pre n s -> n < 7 -> b < 256 ->
  go s (on (pairs b)) [] (fun s' => if n =? 0 then (if b =? 213 then dat None s' else err s') else if b =? 85 then pre (n - 1) s' else err s').
Proof.
  intros [st cn pc r0 r1 r1v] b n (H1 & H2 & H3 & H4) Hn Hb. cbn in H1, H2, H3, H4. subst st cn pc r1v. destruct r0 as (((a0, a1), a2), a3).
  unfold go, final, outs. cbn -[N.div N.modulo N.mul N.add N.eqb N.sub]. rewrite pairs_val by exact Hb. unfold PREAMBLE_1B, SFD.
  destruct (N.eqb_spec n 0) as [->|E]; [destruct (b =? 213); cbn; repeat split; reflexivity|].
  destruct (b =? 85); cbn -[N.modulo N.add N.sub]; repeat split.
  cbn [x_pc]. replace (n + 7) with (n - 1 + 1 * 8) by lia. rewrite N.mod_add by discriminate. apply N.mod_small. lia.
Qed.
Lemma pre_run : forall k s n, pre n s -> N.of_nat k <= n -> n < 7 -> go s (on (flat_map pairs (repeat 85 k))) [] (pre (n - N.of_nat k)).
Proof.
  induction k as [|k IH]; intros s n Hp Hk Hn.
  - apply go_nil. rewrite N.sub_0_r. exact Hp.
  - cbn [repeat]. change (flat_map pairs (85 :: repeat 85 k)) with (pairs 85 ++ flat_map pairs (repeat 85 k)). unfold on. rewrite map_app. fold (on (pairs 85)). fold (on (flat_map pairs (repeat 85 k))).
    apply (go_app _ _ _ [] [] (pre (n - 1))).
    + pose proof (pre_byte s 85 n Hp Hn ltac:(reflexivity)) as (H1 & H2). destruct (N.eqb_spec n 0) as [E|E]; [exfalso; lia|]. split; [exact H1|exact H2].
    + intros s' H'. replace (n - N.of_nat (S k)) with (n - 1 - N.of_nat k) by lia. apply IH; [exact H'|lia|lia].
Qed.
Lemma pre_all : forall k s, idle s -> (S k <= 7)%nat -> go s (on (flat_map pairs (repeat 85 (S k)))) [] (pre (6 - N.of_nat k)).
Proof.
  intros k s Hi Hk. cbn [repeat]. change (flat_map pairs (85 :: repeat 85 k)) with (pairs 85 ++ flat_map pairs (repeat 85 k)). unfold on. rewrite map_app. fold (on (pairs 85)). fold (on (flat_map pairs (repeat 85 k))).
  apply (go_app _ _ _ [] [] (pre 6)).
  - apply (first_byte s 85 Hi); [reflexivity|discriminate].
  - intros s' H'. apply pre_run; [exact H'|lia|reflexivity].
Qed.
Lemma good_go : forall s bs g0 g1 g2 g3, idle s -> Forall (fun b => b < 256) bs -> go s (line (Good bs g0 g1 g2 g3)) (frame bs) idle.
Proof.
  intros s bs g0 g1 g2 g3 Hi Hf. unfold line. rewrite !flat_map_app. unfold on. rewrite !map_app, <- !app_assoc. fold (on (flat_map pairs (repeat 85 7))). fold (on (flat_map pairs bs)).
  apply (go_app _ _ _ [] _ (pre 0)); [apply (pre_all 6 s Hi); lia|]. intros s1 H1.
  apply (go_app _ _ _ [] _ (dat None)); [exact (pre_byte s1 213 0 H1 ltac:(reflexivity) ltac:(reflexivity))|]. intros s2 H2.
  apply (data_go bs s2 None); assumption.
Qed.
Lemma err_go : forall rest s g, err s -> go s (on rest ++ off [g]) (repeat (None, true, false) (length rest) ++ [(None, true, true)]) idle.
Proof.
  induction rest as [|d rest IH]; intros [st cn pc r0 r1 r1v] g H; cbv [err] in H; cbn in H; subst st.
  - unfold go, final, outs, idle. cbn. auto.
  - change (on (d :: rest) ++ off [g]) with ([(d, true)] ++ (on rest ++ off [g])). cbn [length repeat app].
    exact (go_app (mk_rxs Err cn pc r0 r1 r1v) [(d, true)] (on rest ++ off [g]) [(None, true, false)] _ err idle ltac:(split; reflexivity) (fun s' H' => IH s' g H')).
Qed.
Lemma bad_go : forall s n w rest g, idle s -> seg_ok (Bad n w rest g) -> go s (line (Bad n w rest g)) (want (Bad n w rest g)) idle.
Proof.
  intros s n w rest g Hi (Hn & Hw & Hne & H0). unfold line, want. rewrite flat_map_app. unfold on. rewrite !map_app, <- !app_assoc. fold (on (flat_map pairs (repeat 85 n))). fold (on (flat_map pairs [w])). fold (on rest).
  cbn [flat_map]. rewrite app_nil_r.
  assert (G : go s (on (flat_map pairs (repeat 85 n)) ++ on (pairs w)) ([] ++ []) err).
  { destruct n as [|k].
    - cbn [repeat flat_map on map app]. fold (on (pairs w)). pose proof (first_byte s w Hi Hw (H0 eq_refl)) as (F1 & F2). cbn [Nat.eqb] in Hne. apply N.eqb_neq in Hne. rewrite Hne in F2. split; assumption.
    - apply (go_app _ _ _ _ _ (pre (6 - N.of_nat k))); [apply pre_all; assumption|]. intros s1 H1.
      pose proof (pre_byte s1 w _ H1 ltac:(lia) Hw) as (F1 & F2). split; [exact F1|].
      destruct (Nat.eqb_spec (S k) 7) as [E|E].
      + assert (k = 6)%nat by lia. subst k. apply N.eqb_neq in Hne. rewrite Hne in F2. exact F2.
      + destruct (N.eqb_spec (6 - N.of_nat k) 0) as [E'|E']; [exfalso; lia|]. apply N.eqb_neq in Hne. rewrite Hne in F2. exact F2. }
  rewrite app_assoc. apply (go_app _ _ _ [] _ err); [exact G|]. intros s' H'. apply err_go. exact H'.
Qed.
Lemma segs_go : forall l s, idle s -> Forall seg_ok l -> go s (flat_map line l) (flat_map want l) idle.
Proof.
  induction l as [|x l IH]; intros s Hi Hf; [apply go_nil; exact Hi|]. inversion Hf as [|? ? Hx Hf']; subst. cbn [flat_map].
  apply (go_app _ _ _ _ _ idle); [|intros s' H'; apply IH; assumption].
  destruct x as [d v|bs g0 g1 g2 g3|n w rest g].
  - apply quiet_go; [exact Hi|exact Hx].
  - apply good_go; [exact Hi|exact Hx].
  - apply bad_go; assumption.
Qed.
Lemma receives : forall d pc l z, Forall seg_ok l -> received d pc (flat_map line l ++ [z]) = flat_map want l.
Proof.
  intros d pc l z H. unfold received, rx_init. rewrite (proj1 (delay _ _ _ _)).
  change ((d, false) :: flat_map line l) with ([(d, false)] ++ flat_map line l).
  assert (Hi : idle (mk_rxs Skip0 0 pc (0, 0, 0, 0) 0 false)) by (split; reflexivity).
  exact (proj1 (go_app _ _ _ [] _ idle _ (quiet_go _ d false Hi (or_introl eq_refl)) (fun s' H' => segs_go l s' H' H))).
Qed.

(** refutations *)
Lemma existsb_false : forall (f : beat -> bool) l x, existsb f l = false -> In x l -> f x = false.
Proof. intros f l x H Hx. destruct (f x) eqn:E; [|reflexivity]. rewrite <- H. symmetry. apply existsb_exists. exists x. auto. Qed.
Definition is_good (x : beat) : bool := match x with (Some _, false, _) => true | _ => false end.
Definition frag_line : list (N * bool) := on (pairs 85) ++ quiet_n 48 ++ line (Good (repeat 7 64) 0 0 0 0) ++ quiet_n 48.
Definition drib_line : list (N * bool) := on (flat_map pairs (repeat 85 7 ++ [213] ++ repeat 7 64) ++ [1]) ++ quiet_n 48.
Lemma frag_none : forall d pc, existsb is_good (received d pc frag_line) = false.
Proof. intros d pc. vm_compute. reflexivity. Qed.
Lemma drib_none : forall d pc, existsb (fun x : beat => snd x) (received d pc drib_line) = false.
Proof. intros d pc. vm_compute. reflexivity. Qed.
Lemma bytes_ok : Forall (fun b => b < 256) (repeat 7 64).
Proof. apply Forall_forall. intros x Hx. apply repeat_spec in Hx. subst. reflexivity. Qed.
Lemma fragment_lost : exists bytes, Forall (fun b => b < 256) bytes /\ (64 <= length bytes)%nat /\
  forall d pc, let rx := received d pc (on (pairs 85) ++ quiet_n 48 ++ line (Good bytes 0 0 0 0) ++ quiet_n 48) in forall b e, ~ In (Some b, false, e) rx.
Proof.
  exists (repeat 7 64). split; [exact bytes_ok|]. split; [rewrite repeat_length; apply le_n|].
  intros d pc. fold frag_line. cbv zeta. intros b e Hin. pose proof (existsb_false is_good _ _ (frag_none d pc) Hin) as H. discriminate H.
Qed.
Lemma dribble_no_last : exists bytes, Forall (fun b => b < 256) bytes /\ (64 <= length bytes)%nat /\
  forall d pc x, In x (received d pc (on (flat_map pairs (repeat 85 7 ++ [213] ++ bytes) ++ [1]) ++ quiet_n 48)) -> snd x = false.
Proof.
  exists (repeat 7 64). split; [exact bytes_ok|]. split; [rewrite repeat_length; apply le_n|].
  intros d pc x. fold drib_line. intros Hx. exact (existsb_false (fun x : beat => snd x) _ _ (drib_none d pc) Hx).
Qed.
