From Coq Require Import Sorted.
From Verif Require Import Base BaseFacts InterconnectModel InterconnectSpec InterconnectProofs XbarSpec MatrixModel MatrixSpec.

(** * ascending lists *)
Lemma ss_unique l1 : forall l2, StronglySorted lt l1 -> StronglySorted lt l2 -> (forall x, In x l1 <-> In x l2) -> l1 = l2.
Proof.
  induction l1 as [|a l1 IH]; intros [|b l2] S1 S2 H; [reflexivity|exfalso; apply (proj2 (H b)); left; reflexivity|exfalso; apply (proj1 (H a)); left; reflexivity|].
  apply StronglySorted_inv in S1, S2. destruct S1 as [S1 F1], S2 as [S2 F2]. rewrite Forall_forall in F1, F2.
  assert (a = b) as ->.
  { destruct (proj1 (H a) (or_introl eq_refl)) as [E|E]; [auto|]. destruct (proj2 (H b) (or_introl eq_refl)) as [E'|E']; [auto|]. apply F2 in E. apply F1 in E'. lia. }
  f_equal. apply IH; [assumption..|]. intros x. split; intros Hx.
  - destruct (proj1 (H x) (or_intror Hx)) as [->|]; [apply F1 in Hx; lia|assumption].
  - destruct (proj2 (H x) (or_intror Hx)) as [->|]; [apply F2 in Hx; lia|assumption].
Qed.
Lemma ss_seq n : forall b, StronglySorted lt (seq b n).
Proof. induction n as [|n IH]; intros b; cbn; constructor; [apply IH|]. apply Forall_forall. intros x Hx. apply in_seq in Hx. lia. Qed.
Lemma ss_filter f l : StronglySorted lt l -> StronglySorted lt (filter f l).
Proof.
  induction l as [|a l IH]; intros S; [constructor|]. apply StronglySorted_inv in S. destruct S as [S F]. cbn. destruct (f a); [|auto]. constructor; [auto|]. rewrite Forall_forall in *. intros x Hx. apply filter_In in Hx. apply F, Hx.
Qed.
Lemma sorted_ss l : StronglySorted lt (sorted l). Proof. apply ss_filter, ss_seq. Qed.
Lemma sorted_in l x : In x (sorted l) <-> In x l.
Proof.
  unfold sorted. rewrite filter_In, in_seq, memb_In. split; [tauto|]. intros H. split; [|exact H]. pose proof (proj1 (list_max_le l (list_max l)) (le_n _)) as F. rewrite Forall_forall in F. specialize (F x H). lia.
Qed.
Lemma ins l x : In x l -> In x (sorted l). Proof. apply sorted_in. Qed.
Lemma sin l x : In x (sorted l) -> In x l. Proof. apply sorted_in. Qed.
Lemma ss_nodup l : StronglySorted lt l -> NoDup l.
Proof. induction l as [|a l IH]; intros S; [constructor|]. apply StronglySorted_inv in S. destruct S as [S F]. constructor; [|auto]. intros H. rewrite Forall_forall in F. apply F in H. lia. Qed.
Lemma iter_sorted iter l : iterates iter -> ascending iter -> iter l = sorted l.
Proof.
  intros H1 H2. apply ss_unique; [|apply sorted_ss|intros x; rewrite sorted_in; apply H1]. specialize (H2 l). revert H2. generalize (iter l). clear. induction l as [|a l IH]; intros H; constructor.
  - apply IH. intros i j x y Hi Hj Hij. apply (H (S i) (S j)); auto. lia.
  - apply Forall_forall. intros x Hx. apply In_nth_error in Hx. destruct Hx as [n Hn]. apply (H 0 (S n)); auto. lia.
Qed.
Lemma pos_in x l : In x l -> nth_error l (pos x l) = Some x.
Proof. induction l as [|a l IH]; [intros []|]. cbn. intros H. destruct (Nat.eqb_spec x a) as [->|]; [reflexivity|]. destruct H; [congruence|auto]. Qed.
Lemma pos_nth l : NoDup l -> forall j s, nth_error l j = Some s -> pos s l = j.
Proof.
  intros Hn j s H. assert (In s l) as Hi by (eapply nth_error_In; eauto). pose proof (pos_in _ _ Hi) as H'. assert (pos s l < length l) by (apply nth_error_Some; congruence). apply (proj1 (NoDup_nth_error l) Hn); [assumption|congruence].
Qed.
Lemma numbered_in l p k : In (p, k) (numbered l) <-> nth_error l k = Some p.
Proof.
  unfold numbered. transitivity (exists b, b <= k /\ b = 0 /\ In (p, k) (combine l (seq b (length l)))); [split; [intros H; exists 0; repeat split; auto; lia|intros (b & _ & -> & H); exact H]|].
  assert (forall b, In (p, k) (combine l (seq b (length l))) <-> b <= k /\ nth_error l (k - b) = Some p) as E.
  { induction l as [|a l IH]; intros b; cbn [length seq combine]; [split; [intros []|intros [_ H]; destruct (k - b); discriminate]|]. cbn [In]. rewrite IH. split.
    - intros [H|[H1 H2]]; [injection H as -> ->; split; [lia|rewrite Nat.sub_diag; reflexivity]|]. split; [lia|]. replace (k - b) with (S (k - S b)) by lia. exact H2.
    - intros [H1 H2]. destruct (Nat.eq_dec b k) as [->|]; [left; rewrite Nat.sub_diag in H2; injection H2 as ->; reflexivity|right]. split; [lia|]. replace (k - b) with (S (k - S b)) in H2 by lia. exact H2. }
  split; [intros (b & _ & -> & H); apply E in H; rewrite Nat.sub_0_r in H; apply H|]. intros H. exists 0. repeat split; [lia|]. apply E. rewrite Nat.sub_0_r. split; [lia|exact H].
Qed.
Lemma last_max l d : StronglySorted lt l -> forall x, In x l -> x <= last l d.
Proof.
  induction l as [|a l IH]; intros S x Hx; [destruct Hx|]. apply StronglySorted_inv in S. destruct S as [S F]. rewrite Forall_forall in F. destruct l as [|b l]; [destruct Hx as [->|[]]; cbn; lia|]. change (last (a :: b :: l) d) with (last (b :: l) d).
  destruct Hx as [<-|Hx]; [|auto]. pose proof (F b (or_introl eq_refl)). pose proof (IH S b (or_introl eq_refl)). lia.
Qed.
Lemma dense l : StronglySorted lt l -> l <> [] -> length l - 1 = last l 0 -> l = seq 0 (length l).
Proof.
  intros S Hn E. pose proof (last_max l 0 S) as M. assert (0 < length l) by (destruct l; [congruence|cbn; lia]). apply ss_unique; [exact S|apply ss_seq|].
  assert (incl l (seq 0 (length l))) as I by (intros x Hx; apply in_seq; specialize (M x Hx); lia). intros x. split; [apply I|]. apply (NoDup_length_incl (ss_nodup _ S)); [rewrite seq_length; lia|exact I].
Qed.

(** * the groups are not empty *)
Lemma groups_ne mcon : forall mis seen l, groups_from mcon mis seen = Some l -> forall g, In g l -> g <> ([], []).
Proof.
  induction mis as [|mi mis IH]; intros seen l; cbn; [intros E; injection E as <-; intros g []|]. destruct (search mcon (length mcon) [mi] (mk_grp seen [] [])) as [g0|]; [|discriminate]. destruct (groups_from mcon mis (g_seen g0)) as [l'|] eqn:E'; [|discriminate]. intros E. injection E as <-. intros g Hg.
  destruct (g_m g0) as [|a la] eqn:Em; [destruct (g_s g0) as [|b lb] eqn:Es|]; [apply (IH _ _ E' g Hg)|destruct Hg as [<-|Hg]; [discriminate|apply (IH _ _ E' g Hg)]..].
Qed.
Lemma linked_first mcon a b : linked mcon a b -> a = b \/ exists c, c <> a /\ share mcon a c.
Proof.
  induction 1 as [a|a b c H IH Hs]; [left; reflexivity|]. destruct IH as [->|]; [|right; assumption]. destruct (Nat.eq_dec c b); [left; congruence|right; eauto].
Qed.

Section M.
  Variables (iter : list nat -> list nat) (MASTERS : list (list (nat * access))) (SLAVES : list (nat * nat)) (a : access).
  Hypothesis Ha : a = RD \/ a = WR.
  Hypothesis Hi1 : iterates iter. Hypothesis Hi2 : ascending iter.
  Hypothesis Hv : valid_cfg MASTERS SLAVES.
  Hypothesis Hw : forall m s m', sees MASTERS m s -> may MASTERS a m' s -> may MASTERS a m s.
  Hypothesis Hne : forall m, m < length MASTERS -> exists s, may MASTERS a m s.
  Notation mcon := (connected_to MASTERS a).

  Lemma allows_iff e : allows a e = true <-> e = a \/ e = RW.
  Proof. clear - Ha. destruct Ha as [->| ->], e; cbn; intuition congruence. Qed.
  Lemma mcon_may m s : In s (nth m mcon []) <-> may MASTERS a m s.
  Proof.
    unfold connected_to. destruct (nth_error MASTERS m) as [l|] eqn:E.
    - assert (nth m (map (fun m => map fst (filter (fun e => allows a (snd e)) m)) MASTERS) [] = map fst (filter (fun e => allows a (snd e)) l)) as ->.
      { apply nth_error_nth. rewrite nth_error_map, E. reflexivity. }
      rewrite in_map_iff. split.
      + intros ([s' e] & <- & H). apply filter_In in H. destruct H as [H1 H2]. apply allows_iff in H2. exists l, e. auto.
      + intros (l' & e & E' & H1 & H2). rewrite E in E'. injection E' as <-. exists (s, e). split; [reflexivity|]. apply filter_In. split; [exact H1|apply allows_iff; exact H2].
    - rewrite nth_overflow by (rewrite map_length; apply nth_error_None; exact E). split; [intros []|]. intros (l' & e & E' & _). congruence.
  Qed.
  Lemma may_sees m s : may MASTERS a m s -> sees MASTERS m s. Proof. intros (l & e & H1 & H2 & _). exists l, e. auto. Qed.
  Lemma listed_sees m s : In s (map fst (nth m MASTERS [])) <-> sees MASTERS m s.
  Proof.
    destruct (nth_error MASTERS m) as [l|] eqn:E.
    - rewrite (nth_error_nth _ _ _ E), in_map_iff. split; [intros ([s' e] & <- & H); exists l, e; auto|]. intros (l' & e & E' & H). rewrite E in E'. injection E' as <-. exists (s, e). auto.
    - rewrite nth_overflow by (apply nth_error_None; exact E). split; [intros []|]. intros (l' & e & E' & _). congruence.
  Qed.
  Lemma regions_some l : (forall s, In s l -> s < length SLAVES) -> exists r, regions_at SLAVES l = Some r /\ forall j, nth_error r j = match nth_error l j with Some s => nth_error SLAVES s | None => None end.
  Proof.
    clear. induction l as [|s l IH]; intros H; [exists []; split; [reflexivity|intros [|]; reflexivity]|]. destruct IH as (r & E & Hr); [intros x Hx; apply H; right; exact Hx|]. cbn. destruct (nth_error SLAVES s) as [x|] eqn:Es.
    - rewrite E. exists (x :: r). split; [reflexivity|]. intros [|j]; cbn; [symmetry; exact Es|apply Hr].
    - exfalso. apply nth_error_None in Es. specialize (H s (or_introl eq_refl)). lia.
  Qed.

  (** a sub interconnect of the group *)
  Definition sub_ok (g : list nat * list nat) (sb : sub) : Prop :=
    (forall m k, In (m, k) (sb_mc sb) <-> nth_error (sorted (fst g)) k = Some m) /\
    (forall s j, In (s, j) (sb_sc sb) <-> nth_error (sorted (snd g)) j = Some s) /\
    length (sb_masters sb) = length (sorted (fst g)) /\ length (sb_slaves sb) = length (sorted (snd g)) /\
    (forall k m ms, nth_error (sorted (fst g)) k = Some m -> nth_error (sb_masters sb) k = Some ms -> forall j, In j ms <-> exists s, nth_error (sorted (snd g)) j = Some s /\ may MASTERS a m s) /\
    (forall j s, nth_error (sorted (snd g)) j = Some s -> nth_error (sb_slaves sb) j = nth_error SLAVES s).
  Lemma conf_ok g : fst g <> [] -> (forall m, In m (fst g) -> m < length MASTERS) -> (forall s, In s (snd g) <-> exists m, In m (fst g) /\ may MASTERS a m s) ->
    exists sb, configure iter MASTERS SLAVES (fst g) (snd g) = Some sb /\ sub_ok g sb.
  Proof.
    intros H1 H2 H3. destruct g as [gm gs]. cbn [fst snd] in *. assert (gs <> []) as Hgs.
    { destruct gm as [|m gm]; [congruence|]. destruct (Hne m (H2 m (or_introl eq_refl))) as [s Hs]. intros E. rewrite E in H3. apply (proj2 (H3 s)). exists m. split; [left; reflexivity|exact Hs]. }
    assert (forall m s, In m gm -> In s (filter (fun s => memb s gs) (map fst (nth m MASTERS []))) <-> may MASTERS a m s) as Hp.
    { intros m s Hm. rewrite filter_In, listed_sees, memb_In, H3. split; [intros (S & m' & _ & Hm'); eapply Hw; eauto|]. intros Hs. split; [apply may_sees; exact Hs|eauto]. }
    unfold configure. rewrite !(iter_sorted iter) by assumption. destruct gm as [|m0 gm0] eqn:Eg; [congruence|]. rewrite <- Eg in *. destruct gs as [|s0 gs0] eqn:Egs; [congruence|]. rewrite <- Egs in *. clear Eg.
    set (pm := map (fun m_i => filter (fun s => memb s gs) (map fst (nth m_i MASTERS []))) (sorted gm)).
    assert (sorted (concat pm) = sorted gs) as Eu.
    { apply ss_unique; [apply sorted_ss..|]. intros s. rewrite !sorted_in, in_concat, H3. unfold pm. split.
      - intros (l & Hl & Hs). apply in_map_iff in Hl. destruct Hl as (m & <- & Hm). apply sin in Hm. exists m. split; [exact Hm|]. apply Hp; assumption.
      - intros (m & Hm & Hs). eexists. split; [apply in_map_iff; exists m; split; [reflexivity|apply ins; exact Hm]|]. apply Hp; assumption. }
    rewrite Eu. assert (In s0 (sorted gs)) as Hs0 by (apply ins; rewrite Egs; left; reflexivity). pose proof (sorted_ss gs) as Ss. pose proof (fun s => sorted_in gs s) as Si. set (u := sorted gs) in *.
    destruct u as [|u0 u1] eqn:Euu; [destruct Hs0|]. rewrite <- Euu in *. clear Euu.
    destruct (regions_some u) as (r & Er & Hr). { intros s Hs. apply Si, H3 in Hs. destruct Hs as (m & _ & Hs). apply Hv with m. apply may_sees. exact Hs. }
    rewrite Er. eexists. split; [reflexivity|]. unfold sub_ok. cbn [fst snd sb_mc sb_sc sb_masters sb_slaves]. fold u. split; [apply numbered_in|]. split; [apply numbered_in|]. split; [unfold pm; destruct (_ =? _); rewrite !map_length; reflexivity|]. split; [|split].
    - clear - Hr Er Si H3 Hv. assert (forall l r, regions_at SLAVES l = Some r -> length r = length l) as L; [|exact (L _ _ Er)]. clear. induction l as [|s l IH]; intros r; cbn; [intros E; injection E as <-; reflexivity|]. destruct (nth_error SLAVES s); [|discriminate]. destruct (regions_at SLAVES l); [|discriminate]. intros E. injection E as <-. cbn. f_equal. auto.
    - intros k m ms Hk Hms j. assert (In m gm) as Hm by (apply sin; eapply nth_error_In; exact Hk).
      assert (forall j s, nth_error u j = Some s <-> In s u /\ j = pos s u) as Up. { intros j' s. split; [intros E; split; [eapply nth_error_In; exact E|symmetry; apply pos_nth; [apply ss_nodup; exact Ss|exact E]]|intros [E ->]; apply pos_in; exact E]. }
      assert (nth_error pm k = Some (filter (fun s => memb s gs) (map fst (nth m MASTERS [])))) as Ep by (unfold pm; rewrite nth_error_map, Hk; reflexivity).
      destruct (length u - 1 =? last u 0) eqn:El.
      + apply Nat.eqb_eq in El. rewrite Ep in Hms. injection Hms as <-. rewrite (Hp m j Hm). assert (u = seq 0 (length u)) as Ed by (apply dense; [exact Ss| |exact El]; intros E; rewrite E in Hs0; destruct Hs0).
        assert (forall j s, nth_error u j = Some s -> s = j) as Us. { intros j' s E. assert (j' < length u) by (apply nth_error_Some; congruence). rewrite Ed in E. apply (nth_error_nth _ _ 0) in E. rewrite seq_nth in E by assumption. cbn in E. auto. }
        split; [|intros (s & E & Hs); apply Us in E; subst; exact Hs]. intros Hs. assert (In j u) as Hj by (apply Si, H3; eauto). apply In_nth_error in Hj. destruct Hj as [n Hn]. pose proof (Us _ _ Hn) as E. subst n. eauto.
      + rewrite nth_error_map, Ep in Hms. injection Hms as <-. rewrite in_map_iff. split.
        * intros (s & <- & Hs). apply (Hp m s Hm) in Hs. exists s. split; [apply Up; split; [apply Si, H3; eauto|reflexivity]|exact Hs].
        * intros (s & E & Hs). apply Up in E. exists s. split; [symmetry; apply E|]. apply Hp; assumption.
    - intros j s Hj. rewrite Hr, Hj. reflexivity.
  Qed.

  Lemma conf_all gs : (forall g, In g gs -> fst g <> [] /\ (forall m, In m (fst g) -> m < length MASTERS) /\ (forall s, In s (snd g) <-> exists m, In m (fst g) /\ may MASTERS a m s)) ->
    exists l, configure_all iter MASTERS SLAVES gs = Some l /\ Forall2 sub_ok gs l.
  Proof.
    induction gs as [|g gs IH]; intros H; [exists []; split; [reflexivity|constructor]|]. destruct IH as (l & E & F); [intros g' Hg'; apply H; right; exact Hg'|]. destruct (H g (or_introl eq_refl)) as (H1 & H2 & H3). destruct (conf_ok g H1 H2 H3) as (sb & Es & Hs). cbn. rewrite Es, E. eexists. split; [reflexivity|]. constructor; assumption.
  Qed.
  Lemma f2_nth {X Y} (P : X -> Y -> Prop) l l' : Forall2 P l l' -> forall i y, nth_error l' i = Some y -> exists x, nth_error l i = Some x /\ P x y.
  Proof. induction 1 as [|x y l l' H F IH]; intros [|i] z E; cbn in *; try discriminate; [injection E as <-; eauto|eauto]. Qed.
  Lemma f2_nth_l {X Y} (P : X -> Y -> Prop) l l' : Forall2 P l l' -> forall i x, nth_error l i = Some x -> exists y, nth_error l' i = Some y /\ P x y.
  Proof. induction 1 as [|x y l l' H F IH]; intros [|i] z E; cbn in *; try discriminate; [injection E as <-; eauto|eauto]. Qed.

  Lemma c91_subs : exists l, subs iter MASTERS SLAVES a = Some l /\
    (forall m x s, reaches l m x s <-> may MASTERS a m s /\ exists r, nth_error SLAVES s = Some r /\ owns r x) /\
    once l sb_mc /\ once l sb_sc /\
    Forall (fun sb => (length (sb_masters sb) = 1 /\ length (sb_slaves sb) = 1) \/ shared (length (sb_masters sb)) (length (sb_slaves sb)) (sub_conn sb)) l.
  Proof.
    destruct (c37 mcon) as (gs & E & C1 & C2 & C3 & C4). assert (length mcon = length MASTERS) as Lm by apply map_length. rewrite Lm in *.
    assert (forall g, In g gs -> fst g <> []) as Gne.
    { intros g Hg Ef. apply (groups_ne mcon _ _ _ E g Hg). destruct g as [gm s]. cbn in Ef. subst gm. f_equal. destruct s as [|s0 s]; [reflexivity|]. destruct (proj1 (C3 _ s0 Hg) (or_introl eq_refl)) as (m & [] & _). }
    assert (forall g m, In g gs -> In m (fst g) -> m < length MASTERS) as Gm by (intros g m Hg Hm; apply (C2 g m m Hg Hm); exact Hm).
    assert (forall g s, In g gs -> In s (snd g) <-> exists m, In m (fst g) /\ may MASTERS a m s) as Gs.
    { intros g s Hg. rewrite (C3 g s Hg). split; intros (m & H1 & H2); exists m; (split; [exact H1|]); apply mcon_may; exact H2. }
    destruct (conf_all gs) as (l & El & F). { intros g Hg. split; [apply Gne; exact Hg|]. split; [intros m; apply Gm; exact Hg|intros s; apply Gs; exact Hg]. }
    exists l. unfold subs. rewrite E. split; [exact El|].
    assert (forall i sb, nth_error l i = Some sb -> exists g, nth_error gs i = Some g /\ In g gs /\ sub_ok g sb) as Fi.
    { intros i sb H. destruct (f2_nth _ _ _ F i sb H) as (g & G1 & G2). exists g. split; [exact G1|]. split; [eapply nth_error_In; exact G1|exact G2]. }
    split; [|split; [|split]].
    - intros m x s. split.
      + intros (sb & k & j & ms & r & H1 & H2 & H3 & H4 & H5 & H6 & H7). apply In_nth_error in H1. destruct H1 as [i Hi]. destruct (Fi i sb Hi) as (g & _ & Hg & K1 & K2 & K3 & K3' & K4 & K5). apply K1 in H2. apply K2 in H3. apply (K4 _ _ _ H2 H4) in H5. destruct H5 as (s' & E1 & E2). rewrite H3 in E1. injection E1 as <-. split; [exact E2|]. exists r. rewrite <- (K5 _ _ H3). auto.
      + intros (Hm & r & Hr & Ho). assert (m < length MASTERS) as Hl by (destruct Hm as (? & ? & Hm & _); apply nth_error_Some; congruence). destruct (C1 m Hl) as (i & (g & Hi & Hg) & _).
        destruct (f2_nth_l _ _ _ F i g Hi) as (sb & Hsb & K1 & K2 & K3 & K3' & K4 & K5). assert (In g gs) as Hgs by (eapply nth_error_In; exact Hi).
        assert (In s (snd g)) as Hs by (apply (Gs g s Hgs); eauto). apply ins, In_nth_error in Hg. destruct Hg as [k Hk]. apply ins, In_nth_error in Hs. destruct Hs as [j Hj].
        destruct (nth_error (sb_masters sb) k) as [ms|] eqn:Ems. 2:{ exfalso. apply nth_error_None in Ems. assert (k < length (sorted (fst g))) by (apply nth_error_Some; congruence). lia. }
        exists sb, k, j, ms, r. split; [eapply nth_error_In; exact Hsb|]. split; [apply K1; exact Hk|]. split; [apply K2; exact Hj|]. split; [exact Ems|]. split; [apply (K4 _ _ _ Hk Ems); eauto|]. split; [rewrite (K5 _ _ Hj); exact Hr|exact Ho].
    - intros i i' sb sb' p k k' Hi Hi' Hp Hp'. destruct (Fi i sb Hi) as (g & G1 & G2 & K). destruct (Fi i' sb' Hi') as (g' & G1' & G2' & K'). apply K in Hp. apply K' in Hp'.
      assert (In p (fst g)) as X by (apply sin; eapply nth_error_In; exact Hp). assert (In p (fst g')) as X' by (apply sin; eapply nth_error_In; exact Hp').
      destruct (C1 p (Gm g p G2 X)) as (n & _ & Hn). assert (i = i') as <- by (transitivity n; [symmetry|]; apply Hn; eauto). split; [reflexivity|]. rewrite G1 in G1'. injection G1' as <-.
      rewrite <- (pos_nth _ (ss_nodup _ (sorted_ss _)) _ _ Hp). apply pos_nth; [apply ss_nodup, sorted_ss|exact Hp'].
    - intros i i' sb sb' p k k' Hi Hi' Hp Hp'. destruct (Fi i sb Hi) as (g & G1 & G2 & K). destruct (Fi i' sb' Hi') as (g' & G1' & G2' & K'). apply K in Hp. apply K' in Hp'.
      assert (In p (snd g)) as X by (apply sin; eapply nth_error_In; exact Hp). assert (In p (snd g')) as X' by (apply sin; eapply nth_error_In; exact Hp').
      assert (i = i') as <- by (apply (C4 i i' g g' p); assumption). split; [reflexivity|]. rewrite G1 in G1'. injection G1' as <-.
      rewrite <- (pos_nth _ (ss_nodup _ (sorted_ss _)) _ _ Hp). apply pos_nth; [apply ss_nodup, sorted_ss|exact Hp'].
    - apply Forall_forall. intros sb Hsb. apply In_nth_error in Hsb. destruct Hsb as [i Hi]. destruct (Fi i sb Hi) as (g & _ & Hg & K1 & K2 & K3 & K3' & K4 & K5).
      assert (forall k j, sub_conn sb k j = true <-> exists m s, nth_error (sorted (fst g)) k = Some m /\ nth_error (sorted (snd g)) j = Some s /\ may MASTERS a m s) as Sc.
      { intros k j. unfold sub_conn. destruct (nth_error (sb_masters sb) k) as [ms|] eqn:Ek.
        - destruct (nth_error (sorted (fst g)) k) as [m|] eqn:Em. 2:{ exfalso. apply nth_error_None in Em. assert (k < length (sb_masters sb)) by (apply nth_error_Some; congruence). lia. }
          change (existsb (Nat.eqb j) ms) with (memb j ms). rewrite memb_In, (K4 _ _ _ Em Ek). split; [intros (s & S1 & S2); eauto|intros (m' & s & S0 & S1 & S2)]. injection S0 as <-. eauto.
        - split; [discriminate|]. intros (m & s & Em & _). apply nth_error_None in Ek. assert (k < length (sorted (fst g))) by (apply nth_error_Some; congruence). lia. }
      rewrite K3, K3'.
      destruct (Nat.eq_dec (length (sorted (fst g))) 1) as [L1|L1]; [destruct (Nat.eq_dec (length (sorted (snd g))) 1) as [L2|L2]; [left; auto|]|]; right; intros k j Hk Hj Hc; apply Sc in Hc; destruct Hc as (m & s & Em & Es & Hms).
      + left. assert (exists j', j' < length (sorted (snd g)) /\ j' <> j) as (j' & Hj' & Hjj). { destruct (Nat.eq_dec j 0) as [->|]; [exists 1; lia|exists 0; lia]. }
        exists j'. split; [exact Hj'|]. split; [exact Hjj|]. apply Sc. destruct (nth_error (sorted (snd g)) j') as [s'|] eqn:Es'; [|apply nth_error_None in Es'; lia]. exists m, s'. split; [exact Em|]. split; [reflexivity|].
        assert (In s' (snd g)) as Hs' by (apply sin; eapply nth_error_In; exact Es'). apply (Gs g s' Hg) in Hs'. destruct Hs' as (m' & Hm' & Hs'). apply ins, In_nth_error in Hm'. destruct Hm' as [k' Hk']. assert (k' < length (sorted (fst g))) by (apply nth_error_Some; congruence). assert (k' = k) as -> by lia. congruence.
      + assert (In m (fst g)) as Hm by (apply sin; eapply nth_error_In; exact Em).
        assert (exists k', k' < length (sorted (fst g)) /\ k' <> k) as (k' & Hk' & Hkk). { destruct (Nat.eq_dec k 0) as [->|]; [exists 1; lia|exists 0; lia]. }
        destruct (nth_error (sorted (fst g)) k') as [m'|] eqn:Em'; [|apply nth_error_None in Em'; lia]. assert (m' <> m) as Hmm. { intros ->. apply Hkk. rewrite <- (pos_nth _ (ss_nodup _ (sorted_ss _)) _ _ Em'). apply pos_nth; [apply ss_nodup, sorted_ss|exact Em]. }
        assert (In m' (fst g)) as Hm' by (apply sin; eapply nth_error_In; exact Em'). apply (C2 g m m' Hg Hm) in Hm'. destruct Hm' as [_ Hl]. destruct (linked_first _ _ _ Hl) as [->|(c & Hcm & _ & Hcl & s' & S1 & S2)]; [congruence|].
        assert (In c (fst g)) as Hcg. { apply (C2 g m c Hg Hm). split; [rewrite Lm in Hcl; exact Hcl|]. apply linked_step with m; [constructor|]. split; [rewrite Lm; apply (Gm g m Hg Hm)|]. split; [exact Hcl|]. eauto. }
        apply mcon_may in S1, S2. destruct (Nat.eq_dec s' s) as [->|Hss].
        * right. apply ins, In_nth_error in Hcg. destruct Hcg as [kc Hkc]. exists kc. split; [apply nth_error_Some; congruence|]. split; [intros ->; congruence|]. apply Sc. eauto.
        * left. assert (In s' (snd g)) as Hs' by (apply (Gs g s' Hg); eauto). apply ins, In_nth_error in Hs'. destruct Hs' as [js Hjs]. exists js. split; [apply nth_error_Some; congruence|]. split; [intros ->; congruence|]. apply Sc. eauto.
  Qed.
End M.

Section El.
  Variables (iter : list nat -> list nat) (MASTERS : list (list (nat * access))) (SLAVES : list (nat * nat)).
  Lemma c91 : iterates iter -> ascending iter -> valid_cfg MASTERS SLAVES ->
    (forall a m s m', a <> RW -> sees MASTERS m s -> may MASTERS a m' s -> may MASTERS a m s) ->
    (forall a m, a <> RW -> m < length MASTERS -> exists s, may MASTERS a m s) ->
    (forall s, s < length SLAVES -> exists m, sees MASTERS m s) ->
    exists r w, elaborate iter MASTERS SLAVES = Some (r, w) /\
    forall a l, (a = RD /\ l = r) \/ (a = WR /\ l = w) ->
      (forall m x s, reaches l m x s <-> may MASTERS a m s /\ exists r, nth_error SLAVES s = Some r /\ owns r x) /\
      once l sb_mc /\ once l sb_sc /\
      Forall (fun sb => (length (sb_masters sb) = 1 /\ length (sb_slaves sb) = 1) \/ shared (length (sb_masters sb)) (length (sb_slaves sb)) (sub_conn sb)) l.
  Proof.
    intros H1 H2 H3 H4 H5 H6. destruct (c91_subs iter MASTERS SLAVES RD (or_introl eq_refl) H1 H2 H3) as (r & Er & Hr); [intros m s m'; apply H4; discriminate|intros m; apply H5; discriminate|].
    destruct (c91_subs iter MASTERS SLAVES WR (or_intror eq_refl) H1 H2 H3) as (w & Ew & Hw); [intros m s m'; apply H4; discriminate|intros m; apply H5; discriminate|].
    exists r, w. unfold elaborate. rewrite Er, Ew. split.
    - replace (forallb _ _) with true; [reflexivity|]. symmetry. apply forallb_forall. intros s Hs. apply in_seq in Hs. destruct (H6 s) as (m & l & e & E & Hi); [lia|]. apply orb_true_iff.
      assert (forall a, a <> RW -> e = a \/ e = RW -> has_slave MASTERS a s = true) as K.
      { intros a Ha He. apply existsb_exists. assert (a = RD \/ a = WR) as Ha' by (destruct a; [auto..|congruence]). assert (In s (nth m (connected_to MASTERS a) [])) as Hn by (apply (mcon_may MASTERS a Ha'); exists l, e; auto).
        exists (nth m (connected_to MASTERS a) []). split; [|apply memb_In; exact Hn]. apply nth_In. unfold connected_to. rewrite map_length. apply nth_error_Some. congruence. }
      destruct e; [left; apply K; [discriminate|auto]|right; apply K; [discriminate|auto]|left; apply K; [discriminate|auto]].
    - intros a l [[-> ->]|[-> ->]]; assumption.
  Qed.
End El.
