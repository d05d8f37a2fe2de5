From Verif Require Import Base BaseFacts RamModel RamSpec.

(** * RamAsAddrDataRdVld *)
Section RH.
  Context {A : Type} (u : A).
  Implicit Types (s : rh_state A) (i : rh_in A).

  Definition rh_inv s : Prop := (rs_pend s = true -> rs_ovld s = false) /\ (rs_ovld s = true -> rs_vld s = true).
  Definition rh_cont s : list A :=
    (if rs_vld s then [rs_data s] else []) ++ (if rs_ovld s then [rs_odata s] else []) ++ (if rs_pend s then [rs_dout s] else []).

  Lemma rh_step_ok s i : rh_inv s ->
    let c := (i, snd (rh_step u s i)) in
    let s' := fst (rh_step u s i) in
    rh_inv s' /\
    rh_cont s ++ (if rd_acc c then [rs_mem s (ri_addr i)] else []) = (if dat_acc c then [ro_data (snd c)] else []) ++ rh_cont s' /\
    (forall a, rs_mem s' a = (if wr_acc c then upd (rs_mem s) (ri_waddr i) (ri_wdata i) else rs_mem s) a) /\
    (rd_acc c = true -> wr_acc c = false) /\ (ri_drd i = true -> ro_ard (snd c) = true).
  Proof.
    destruct s as [m dout pend vld data ovld odata], i as [avld addr drd wvld waddr wdata].
    unfold rh_inv, rh_cont, rd_acc, wr_acc, dat_acc, rh_step.
    cbn [rs_mem rs_dout rs_pend rs_vld rs_data rs_ovld rs_odata ri_avld ri_addr ri_drd ri_wvld ri_waddr ri_wdata fst snd].
    intros [H1 H2].
    destruct pend; [rewrite (H1 eq_refl) in *|]; destruct vld, avld, drd, wvld; try destruct ovld; try (specialize (H2 eq_refl); discriminate);
      cbn; repeat split; intros; try reflexivity; try discriminate; auto.
  Qed.

  Lemma rh_run is : forall s, rh_inv s ->
    let t := trace (rh_step u) s is in
    rh_inv (final (rh_step u) s is) /\
    rh_cont s ++ answers (rs_mem s) t = handed t ++ rh_cont (final (rh_step u) s is).
  Proof.
    assert (forall t (m m' : nat -> A), (forall a, m a = m' a) -> answers m t = answers m' t) as Hext.
    { induction t as [|c t IH]; intros m m' E; [reflexivity|]. cbn [answers]. rewrite E. f_equal. apply IH.
      intros a. destruct (wr_acc c); [|apply E]. unfold upd. destruct (a =? _); [reflexivity|apply E]. }
    induction is as [|i is IH]; intros s Hs t; [split; [exact Hs|]; unfold t; rewrite trace_nil, final_nil; cbn [answers handed flat_map]; rewrite app_nil_r; reflexivity|].
    unfold t. rewrite trace_cons, final_cons. destruct (rh_step_ok s i Hs) as (H1 & H2 & H3 & _).
    destruct (IH _ H1) as [I1 I2]. split; [exact I1|]. unfold handed in *. cbn [answers flat_map]. rewrite app_assoc.
    cbn [fst] in *. rewrite H2. rewrite <- !app_assoc. f_equal. rewrite <- I2. f_equal. apply Hext. intros a. symmetry. apply H3.
  Qed.

  Lemma rh_every is s c : rh_inv s -> In c (trace (rh_step u) s is) ->
    (rd_acc c = true -> wr_acc c = false) /\ (ri_drd (fst c) = true -> ro_ard (snd c) = true).
  Proof.
    revert s. induction is as [|i is IH]; intros s Hs Hin; [contradiction|]. rewrite trace_cons in Hin.
    destruct (rh_step_ok s i Hs) as (H1 & _ & _ & H4 & H5). destruct Hin as [<-|Hin]; [split; [exact H4|exact H5]|].
    exact (IH _ H1 Hin).
  Qed.
End RH.

Lemma c30 : forall (A : Type) (u : A) (m : nat -> A) (a b d : A) (is : list (rh_in A)),
  let t := trace (rh_step u) (rh_init m a b d) is in
  (exists inside, answers m t = handed t ++ inside /\ length inside <= 2) /\
  (forall c, In c t -> ~ (rd_acc c = true /\ wr_acc c = true)).
Proof.
  intros A u m a b d is t. assert (rh_inv (rh_init m a b d)) as H0 by (split; discriminate). split.
  - destruct (rh_run u is _ H0) as [H1 H2]. fold t in H2. exists (rh_cont (final (rh_step u) (rh_init m a b d) is)). split; [exact H2|].
    destruct H1 as [H1 _]. unfold rh_cont. rewrite !app_length. destruct (rs_vld _), (rs_pend _); try (rewrite (H1 eq_refl)); simpl; try lia;
      destruct (rs_ovld _); simpl; lia.
  - intros c Hc [E1 E2]. destruct (rh_every u is _ c H0 Hc) as [H _]. rewrite (H E1) in E2. discriminate.
Qed.

Lemma c30_live : forall (A : Type) (u : A) (m : nat -> A) (a b d : A) (is : list (rh_in A)) (i j k : rh_in A),
  let s := final (rh_step u) (rh_init m a b d) is in
  (ri_drd i = true -> ro_ard (snd (rh_step u s i)) = true) /\
  (handed (trace (rh_step u) (rh_init m a b d) is) = answers m (trace (rh_step u) (rh_init m a b d) is) -> ro_ard (snd (rh_step u s i)) = true) /\
  (rd_acc (i, snd (rh_step u s i)) = true ->
   ro_dvld (snd (rh_step u (final (rh_step u) s [i; j]) k)) = true).
Proof.
  intros A u m a b d is i j k s. assert (rh_inv (rh_init m a b d)) as H0 by (split; discriminate).
  destruct (rh_run u is _ H0) as [Hs Hc]. fold s in Hs, Hc.
  split; [|split].
  - apply (rh_step_ok u s i Hs).
  - intros E. cbn [rh_init rh_cont rs_vld rs_ovld rs_pend app] in Hc. change (rs_mem (rh_init m a b d)) with m in Hc. rewrite E in Hc.
    unfold rh_cont at 1 in Hc. cbn [rh_init rs_vld rs_ovld rs_pend app] in Hc.
    assert (rh_cont s = []) as En.
    { apply (app_inv_head (answers m (trace (rh_step u) (rh_init m a b d) is))). rewrite app_nil_r. symmetry. exact Hc. }
    unfold rh_step. destruct (rs_pend s), (rs_vld s) eqn:Ev, (rs_ovld s) eqn:Eo; unfold rh_cont in En; rewrite ?Ev, ?Eo in En; cbn in En; try discriminate; destruct (ri_drd i); reflexivity.
  - clear Hc. clearbody s. intros Ha. rewrite final_cons, final_cons, final_nil.
    assert (rs_pend (fst (rh_step u s i)) = true) as Hp.
    { unfold rd_acc in Ha. cbn [fst snd] in Ha. unfold rh_step in *. destruct (rs_pend s), (negb (rs_vld s) || ri_drd i), (ri_drd i); cbn in *;
        exact Ha. }
    set (s1 := fst (rh_step u s i)) in *. clearbody s1. unfold rh_step at 2. rewrite Hp.
    destruct (negb (rs_vld s1) || ri_drd j) eqn:E; cbn [fst].
    + unfold rh_step. cbn [rs_pend rs_vld]. destruct (ri_avld j && _); cbn [snd ro_dvld]; destruct (ri_drd k); reflexivity.
    + apply orb_false_elim in E. destruct E as [E _]. apply negb_false_iff in E. unfold rh_step. cbn [rs_pend rs_vld]. rewrite E.
      destruct (ri_avld j && _); cbn [snd ro_dvld]; destruct (ri_drd k); reflexivity.
Qed.

(** * RAM *)
Section BE.
  Context {B : Type}.
  Implicit Types (p : port_in B) (m : memory B).

  Lemma byte_we_writes c p a b : byte_we c p b && (p_addr p =? a) = true <-> port_writes c p a b (p_din p b).
  Proof.
    unfold byte_we, port_writes. split.
    - intros H. apply andb_prop in H. destruct H as [H H4]. apply andb_prop in H. destruct H as [H H3]. apply andb_prop in H. destruct H as [H1 H2].
      apply Nat.eqb_eq in H4. repeat split; try assumption; intros; try (rewrite H in H3); try (rewrite H0 in H3); assumption.
    - intros (H1 & H2 & H3 & _ & H4 & H5). rewrite H1, H2, H3, Nat.eqb_refl. destruct (hasBE c); [rewrite (H4 eq_refl); reflexivity|].
      destruct (hasR c); [rewrite (H5 eq_refl eq_refl)|]; reflexivity.
  Qed.

  Lemma writes_cons c cs p ps a b v : writes (c :: cs) (p :: ps) a b v <-> port_writes c p a b v \/ writes cs ps a b v.
  Proof.
    split.
    - intros (k & c' & p' & H1 & H2 & H3). destruct k as [|k]; cbn [nth_error] in *.
      + injection H1 as ->. injection H2 as ->. left. exact H3.
      + right. exists k, c', p'. auto.
    - intros [H|(k & c' & p' & H1 & H2 & H3)]; [exists 0, c, p; auto|exists (S k), c', p'; auto].
  Qed.
  Lemma writes_nil cs ps a b (v : B) : combine cs ps = [] -> ~ writes cs ps a b v.
  Proof. intros E (k & c & p & H1 & H2 & _). destruct cs, ps; try discriminate; destruct k; discriminate. Qed.

  (** one cycle *)
  Lemma mem_next_spec cs : forall ps (v0 : B) a b,
    let r := fold_left (fun v (cp : port_cfg * port_in B) =>
       if byte_we (fst cp) (snd cp) b && (p_addr (snd cp) =? a) then p_din (snd cp) b else v) (combine cs ps) v0 in
    ((exists v, writes cs ps a b v) -> writes cs ps a b r) /\ ((forall v, ~ writes cs ps a b v) -> r = v0).
  Proof.
    induction cs as [|c cs IH]; intros ps v0 a b r.
    - split; [intros [v H]; exfalso; exact (writes_nil [] ps a b v eq_refl H)|reflexivity].
    - destruct ps as [|p ps]; [split; [intros [v H]; exfalso; exact (writes_nil (c :: cs) [] a b v eq_refl H)|reflexivity]|].
      unfold r. cbn [combine fold_left fst snd].
      destruct (byte_we c p b && (p_addr p =? a)) eqn:E.
      + apply byte_we_writes in E. destruct (IH ps (p_din p b) a b) as [I1 I2]. split.
        * intros _. apply writes_cons. cbv zeta in *.
          set (x := fold_left _ (combine cs ps) (p_din p b)) in *.
          assert ((exists v, writes cs ps a b v) \/ (forall v, ~ writes cs ps a b v)) as D.
          { clear. induction cs as [|c cs IH] in ps |- *; [right; intros v; apply writes_nil; reflexivity|].
            destruct ps as [|p ps]; [right; intros v; apply writes_nil; reflexivity|].
            destruct (byte_we c p b && (p_addr p =? a)) eqn:E.
            - left. exists (p_din p b). apply writes_cons. left. apply byte_we_writes. exact E.
            - destruct (IH ps) as [[v H]|H]; [left; exists v; apply writes_cons; right; exact H|].
              right. intros v Hv. apply writes_cons in Hv. destruct Hv as [Hv|Hv]; [|exact (H v Hv)].
              assert (p_din p b = v) by apply Hv. subst v. apply byte_we_writes in Hv. rewrite Hv in E. discriminate. }
          destruct D as [D|D]; [right; exact (I1 D)|left; rewrite (I2 D); exact E].
        * intros H. exfalso. apply (H (p_din p b)). apply writes_cons. left. exact E.
      + destruct (IH ps v0 a b) as [I1 I2]. assert (forall v, ~ port_writes c p a b v) as Hn.
        { intros v Hv. assert (p_din p b = v) by apply Hv. subst v. apply byte_we_writes in Hv. rewrite Hv in E. discriminate. }
        split.
        * intros [v H]. apply writes_cons. right. apply I1. apply writes_cons in H. destruct H as [H|H]; [exfalso; exact (Hn v H)|exists v; exact H].
        * intros H. apply I2. intros v Hv. apply (H v). apply writes_cons. right. exact Hv.
  Qed.

  Lemma mem_hist cs : forall (h : list (list (port_in B))) (s : ram_state B) (a b : nat) (v : B), last_written cs h a b (fst s a b) v -> fst (final (ram_step cs) s h) a b = v.
  Proof.
    induction h as [|ps h IH]; intros s a b v H.
    - destruct H as [E _|h1 ps h2 E]; [symmetry; exact E|destruct h1; discriminate].
    - rewrite final_cons. apply IH. destruct (mem_next_spec cs ps (fst s a b) a b) as [M1 M2].
      cbn [ram_step fst]. unfold mem_next.
      destruct H as [E Hn|h1 ps' h2 E Hw Hu Hn].
      + apply lw_init; [|intros ps' x Hi; apply Hn; right; exact Hi]. rewrite M2; [exact E|]. intros x. apply Hn. left. reflexivity.
      + destruct h1 as [|q h1]; cbn [app] in E; injection E as <- ->.
        * apply lw_init; [|exact Hn]. symmetry. apply Hu. apply M1. exists v. exact Hw.
        * apply (lw_write _ _ _ _ _ _ h1 ps' h2); auto.
  Qed.
End BE.

Lemma ram_douts {B} (cs : list port_cfg) : forall (h : list (list (port_in B))) (s : ram_state B),
  length (snd s) = length cs -> (forall ps, In ps h -> length ps = length cs) ->
  length (snd (final (ram_step cs) s h)) = length cs.
Proof.
  induction h as [|ps h IH]; intros s Hs Hh; [exact Hs|]. rewrite final_cons. apply IH; [|intros q Hq; apply Hh; right; exact Hq].
  cbn [ram_step fst snd]. rewrite map_length, !combine_length. rewrite (Hh ps) by (left; reflexivity). lia.
Qed.

Lemma dout_nth {B} (cs : list port_cfg) (s : ram_state B) (ps : list (port_in B)) k c p d :
  nth_error cs k = Some c -> nth_error ps k = Some p -> nth_error (snd s) k = Some d ->
  nth_error (snd (fst (ram_step cs s ps))) k = Some (dout_next (fst s) c p d).
Proof.
  cbn [ram_step fst snd]. generalize (fst s), (snd s). intros m ds. revert ps ds k.
  induction cs as [|c0 cs IH]; intros [|p0 ps] [|d0 ds] k H1 H2 H3; destruct k; try discriminate.
  - cbn [nth_error combine map fst snd] in *. injection H1 as ->. injection H2 as ->. injection H3 as ->. reflexivity.
  - cbn [nth_error combine map] in *. apply IH; assumption.
Qed.

Lemma c33 : forall (B : Type) (cs : list port_cfg) (m : memory B) (h : list (list (port_in B)))
    (ps nxt : list (port_in B)) (k : nat) (c : port_cfg) (p : port_in B),
  (forall q, In q (h ++ [ps]) -> length q = length cs) ->
  nth_error cs k = Some c -> nth_error ps k = Some p -> hasR c = true -> p_en p = true ->
  exists d, nth_error (snd (ram_step cs (final (ram_step cs) (ram_init cs m) (h ++ [ps])) nxt)) k = Some (Some d) /\
    forall b v, last_written cs h (p_addr p) b (m (p_addr p) b) v -> d b = v.
Proof.
  intros B cs m h ps nxt k c p Hlen Hc Hp HR He.
  assert (length (snd (final (ram_step cs) (ram_init cs m) h)) = length cs) as Hl.
  { apply ram_douts; [cbn; apply map_length|]. intros q Hq. apply Hlen. apply in_or_app. left. exact Hq. }
  pose proof (mem_hist cs h (ram_init cs m)) as Hm. cbn [ram_init fst] in Hm.
  set (s := final (ram_step cs) (ram_init cs m) h) in *.
  assert (exists d0, nth_error (snd s) k = Some d0) as [d0 Ed].
  { destruct (nth_error (snd s) k) eqn:E; [eexists; reflexivity|]. apply nth_error_None in E.
    assert (k < length cs) by (apply nth_error_Some; congruence). lia. }
  rewrite final_snoc. fold s. change (snd (ram_step cs ?x nxt)) with (snd x).
  rewrite (dout_nth cs s ps k c p d0 Hc Hp Ed). unfold dout_next. rewrite HR, He. exists (fst s (p_addr p)). split; [reflexivity|].
  intros b v Hw. apply Hm. exact Hw.
Qed.

(** ** a memory made of several blocks *)
Lemma nth_firstn_skipn {A} (l : list A) K o b d : b < K -> nth b (firstn K (skipn o l)) d = nth (o + b) l d.
Proof.
  intros H. revert o. induction l as [|x l IHl]; intros o.
  - rewrite skipn_nil, firstn_nil. destruct b, o; reflexivity.
  - destruct o as [|o]; [|apply IHl]. cbn [skipn Nat.add].
    clear IHl. revert H. generalize (x :: l). clear. intros l. revert l K. induction b as [|b IH]; intros l K H; (destruct K; [lia|]); destruct l; try reflexivity. cbn [firstn nth]. apply IH. lia.
Qed.

Section Blocks.
  Context {B : Type}.
  Variables (cs : list port_cfg) (K : nat).
  Definition child_cycle (i : nat) (ps : list (port_in B)) : list (port_in B) :=
    map (fun cp : port_cfg * port_in B => child_in K i (fst cp) (snd cp)) (combine cs ps).

  Lemma child_we i c (p : port_in B) b : b < K -> byte_we c (child_in K i c p) b = byte_we c p (i * K + b).
  Proof.
    intros H. unfold byte_we, child_in. cbn [p_en p_we]. destruct (hasBE c); [|reflexivity]. rewrite nth_firstn_skipn by exact H. reflexivity.
  Qed.
  Lemma child_mem i ps (m m' : memory B) a b : b < K -> m' a b = m a (i * K + b) ->
    mem_next cs (child_cycle i ps) m' a b = mem_next cs ps m a (i * K + b).
  Proof.
    intros H E. unfold mem_next, child_cycle. rewrite E. generalize (m a (i * K + b)). clear E m m'. revert ps.
    induction cs as [|c cs' IH]; intros [|p ps] v; try reflexivity. cbn [combine map fold_left fst snd].
    rewrite child_we by exact H. cbn [child_in p_addr p_din]. apply IH.
  Qed.
  Definition same_dout (i : nat) (d d' : option (nat -> B)) : Prop :=
    match d, d' with Some w, Some w' => forall b, b < K -> w' b = w (i * K + b) | None, None => True | _, _ => False end.

  Lemma blocks_run i : forall h (s s' : ram_state B),
    (forall a b, b < K -> fst s' a b = fst s a (i * K + b)) -> Forall2 (same_dout i) (snd s) (snd s') ->
    Forall2 (same_dout i) (snd (final (ram_step cs) s h)) (snd (final (ram_step cs) s' (map (child_cycle i) h))).
  Proof.
    induction h as [|ps h IH]; intros s s' Hm Hd; [exact Hd|]. cbn [map]. rewrite !final_cons. apply IH.
    - intros a b Hb. cbn [ram_step fst]. apply child_mem; [exact Hb|]. apply Hm. exact Hb.
    - cbn [ram_step fst snd]. clear IH. unfold child_cycle. revert ps Hd. generalize (snd s), (snd s').
      induction cs as [|c cs' IH]; intros ds ds' [|p ps] Hd; cbn [combine map]; try (constructor; fail).
      inversion Hd as [|d d' ds1 ds1' Hd0 Hds]; subst; cbn [combine map]; [constructor|]. constructor; [|apply IH; exact Hds].
      cbn [fst snd]. unfold dout_next. cbn [child_in p_en p_addr]. destruct (hasR c); [|exact I].
      destruct (p_en p); [intros b Hb; apply Hm; exact Hb|]. destruct (hasW c); [exact I|exact Hd0].
  Qed.
End Blocks.

Lemma c33_blocks : forall (B : Type) (cs : list port_cfg) (m : memory B) (K : nat) (h : list (list (port_in B))) (k b : nat) (d : option (nat -> B)),
  0 < K ->
  nth_error (snd (final (ram_step cs) (ram_init cs m) h)) k = Some d ->
  join_dout K (fun i => nth k (snd (final (ram_step cs) (ram_init cs (fun a b => m a (i * K + b))) (map (child_cycle cs K i) h))) None) b =
  match d with Some w => Some (w b) | None => None end.
Proof.
  intros B cs m K h k b d HK Hd. unfold join_dout.
  pose proof (blocks_run cs K (b / K) h (ram_init cs m) (ram_init cs (fun a b0 => m a (b / K * K + b0)))) as H.
  cbn [ram_init fst snd] in H. specialize (H (fun a b _ => eq_refl)).
  assert (Forall2 (same_dout (B:=B) K (b / K)) (map (fun _ => None) cs) (map (fun _ => None) cs)) as H0 by (clear; induction cs; constructor; [exact I|assumption]).
  specialize (H H0). clear H0. cbn [ram_init] in *.
  set (l := snd (final (ram_step cs) (m, map (fun _ => None) cs) h)) in *.
  set (l' := snd (final (ram_step cs) _ (map (child_cycle cs K (b / K)) h))) in *. clearbody l l'.
  revert k Hd. induction H as [|x y l0 l1 Hxy _ IH]; intros k Hd; [destruct k; discriminate|].
  destruct k as [|k]; [|apply IH; exact Hd]. cbn [nth_error nth] in *. injection Hd as ->.
  unfold same_dout in Hxy. destruct d as [w|], y as [w'|]; try contradiction; [|reflexivity].
  rewrite Hxy by (apply Nat.mod_upper_bound; lia). do 2 f_equal. rewrite (Nat.div_mod b K) at 3 by lia. lia.
Qed.

(** * Examples *)
Definition ri (av : bool) (a : nat) (dr wv : bool) (wa wd : nat) : rh_in nat := mk_ri av a dr wv wa wd.
Definition ex30 : list (rh_in nat) :=
  [ri true 1 false true 1 77; ri true 2 false true 2 88; ri true 3 false true 2 88; ri false 0 true false 0 0;
   ri true 2 false false 0 0; ri true 3 true true 0 0; ri false 3 true true 0 5; ri true 0 true false 0 0; ri false 0 true false 0 0; ri false 0 true false 0 0].

Definition ex33_cs : list port_cfg := [mk_pc true true true; mk_pc true false false].
Definition ex33_in (en : bool) (a : nat) (we : list bool) (d : list nat) : port_in nat := mk_pi en a we (fun b => nth b d 0).
Definition ex33_h : list (list (port_in nat)) :=
  [[ex33_in true 3 [true; true] [10; 11]; ex33_in false 0 [] []];
   [ex33_in true 3 [false; true] [20; 21]; ex33_in false 0 [] []];
   [ex33_in true 4 [true; true] [30; 31]; ex33_in true 3 [] []]].

Lemma c33_ex :
  match nth_error (snd (final (ram_step ex33_cs) (ram_init ex33_cs (fun _ _ => 0)) ex33_h)) 1 with
  | Some (Some d) => (d 0, d 1) = (10, 21)
  | _ => False
  end /\ (forall q, In q ex33_h -> length q = length ex33_cs) /\
  last_written ex33_cs (firstn 2 ex33_h) 3 0 0 10 /\ last_written ex33_cs (firstn 2 ex33_h) 3 1 0 21.
Proof.
  split; [vm_compute; reflexivity|]. split; [intros q [<-|[<-|[<-|[]]]]; reflexivity|].
  assert (forall k c p a b v, nth_error ex33_cs k = Some c -> nth_error [ex33_in true 3 [false; true] [20; 21]; ex33_in false 0 [] []] k = Some p -> port_writes c p a b v -> k = 0 /\ a = 3 /\ b = 1 /\ v = 21) as W2.
  { intros k c p a b v H1 H2 (H3 & H4 & H5 & H6 & H7 & H8). destruct k as [|[|k]]; cbn [nth_error ex33_cs] in *; [|injection H1 as <-; discriminate|destruct k; discriminate].
    injection H1 as <-. injection H2 as <-. specialize (H7 eq_refl). cbn [p_we ex33_in p_addr p_din] in *.
    destruct b as [|[|[]]]; try discriminate. cbn [nth] in H6. auto. }
  assert (forall k c p a b v, nth_error ex33_cs k = Some c -> nth_error [ex33_in true 3 [true; true] [10; 11]; ex33_in false 0 [] []] k = Some p -> port_writes c p a b v -> k = 0 /\ a = 3 /\ v = nth b [10; 11] 0) as W1.
  { intros k c p a b v H1 H2 (H3 & H4 & H5 & H6 & H7 & H8). destruct k as [|[|k]]; cbn [nth_error ex33_cs] in *; [|injection H1 as <-; discriminate|destruct k; discriminate].
    injection H1 as <-. injection H2 as <-. cbn [p_we ex33_in p_addr p_din] in *. auto. }
  split.
  - apply (lw_write _ _ _ _ _ _ [] [ex33_in true 3 [true; true] [10; 11]; ex33_in false 0 [] []] [[ex33_in true 3 [false; true] [20; 21]; ex33_in false 0 [] []]]).
    + reflexivity.
    + exists 0, (mk_pc true true true), (ex33_in true 3 [true; true] [10; 11]). repeat split; discriminate.
    + intros x (k & c & p & H1 & H2 & H3). apply (W1 k c p 3 0 x H1 H2 H3).
    + intros ps' x [<-|[]] (k & c & p & H1 & H2 & H3). destruct (W2 k c p 3 0 x H1 H2 H3) as (_ & _ & E & _). discriminate.
  - apply (lw_write _ _ _ _ _ _ [[ex33_in true 3 [true; true] [10; 11]; ex33_in false 0 [] []]] [ex33_in true 3 [false; true] [20; 21]; ex33_in false 0 [] []] []).
    + reflexivity.
    + exists 0, (mk_pc true true true), (ex33_in true 3 [false; true] [20; 21]). repeat split; discriminate.
    + intros x (k & c & p & H1 & H2 & H3). apply (W2 k c p 3 1 x H1 H2 H3).
    + intros ps' x [].
Qed.
