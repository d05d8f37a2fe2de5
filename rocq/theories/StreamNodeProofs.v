From Verif Require Import Base StreamNodeModel StreamNodeSpec.

Lemma all_true_app a b : all_true (a ++ b) = all_true a && all_true b.
Proof. apply forallb_app. Qed.

Lemma all_true_in l : all_true l = true <-> forall b, In b l -> b = true.
Proof. apply forallb_forall. Qed.

Lemma others_all {A} (f : A -> bool) i (l : list A) c :
  nth_error l i = Some c ->
  f c && all_true (map f (others i l)) = all_true (map f l).
Proof.
  unfold others. revert i. induction l as [|a l IH]; intros i H; [destruct i; discriminate|].
  destruct i as [|i]; simpl in H.
  - injection H as <-. reflexivity.
  - cbn [firstn skipn app map]. unfold all_true in *. cbn [forallb].
    rewrite <- (IH i H). destruct (f c), (f a); reflexivity.
Qed.

Lemma sync_sig_iff c : sync_sig c = (skipped c || offered c).
Proof. unfold sync_sig, skipped, offered. destruct (sig c) as [[]|], (skip c) as [[]|]; reflexivity. Qed.

Lemma mask_skip_eq c r : mask_skip c r = r && negb (skipped c).
Proof. unfold mask_skip, skipped. destruct (skip c); simpl; [reflexivity|]. rewrite andb_true_r. reflexivity. Qed.

Lemma extra_ok c : all_true (extra_list c) = negb (blocked c).
Proof. unfold extra_list, blocked. destruct (extra c) as [[]|]; reflexivity. Qed.

Definition go (n : node) : bool := all_true (map sync_sig (masters n)) && all_true (map sync_sig (slaves n)).

Lemma go_iff n : go n = true <-> everyone_waits n.
Proof.
  unfold go, everyone_waits. rewrite andb_true_iff, !all_true_in. split; intros [H1 H2]; split.
  - intros c Hc Hs. specialize (H1 _ (in_map sync_sig _ _ Hc)). rewrite sync_sig_iff, Hs in H1. exact H1.
  - intros c Hc Hs. specialize (H2 _ (in_map sync_sig _ _ Hc)). rewrite sync_sig_iff, Hs in H2. exact H2.
  - intros b Hb. apply in_map_iff in Hb. destruct Hb as [c [<- Hc]]. rewrite sync_sig_iff.
    destruct (skipped c) eqn:E; [reflexivity|]. apply H1; assumption.
  - intros b Hb. apply in_map_iff in Hb. destruct Hb as [c [<- Hc]]. rewrite sync_sig_iff.
    destruct (skipped c) eqn:E; [reflexivity|]. apply H2; assumption.
Qed.

Lemma master_eq n en i c :
  nth_error (masters n) i = Some c ->
  master_transfers n en i c = go n && negb (skipped c) && negb (blocked c) && en.
Proof.
  intros H. unfold master_transfers, rd_of_master, ack_for_master.
  rewrite mask_skip_eq, !all_true_app, extra_ok. unfold go.
  rewrite <- (others_all sync_sig i (masters n) c H), (sync_sig_iff c).
  destruct (skipped c), (offered c), (blocked c), (all_true (map sync_sig (others i (masters n)))),
    (all_true (map sync_sig (slaves n))), en; reflexivity.
Qed.

Lemma slave_eq n en j c :
  nth_error (slaves n) j = Some c ->
  slave_transfers n en j c = go n && negb (skipped c) && negb (blocked c) && en.
Proof.
  intros H. unfold slave_transfers, vld_of_slave, ack_for_slave.
  rewrite mask_skip_eq, !all_true_app, extra_ok. unfold go.
  rewrite <- (others_all sync_sig j (slaves n) c H), (sync_sig_iff c).
  destruct (skipped c), (offered c), (blocked c), (all_true (map sync_sig (others j (slaves n)))),
    (all_true (map sync_sig (masters n))), en; reflexivity.
Qed.

Lemma no_extra_blocked n c : no_extra n -> In c (masters n ++ slaves n) -> blocked c = false.
Proof. intros H Hc. unfold blocked. rewrite (H c Hc). reflexivity. Qed.

Lemma c08 n en :
  no_extra n ->
  (forall i c, nth_error (masters n) i = Some c ->
     (master_transfers n en i c = true <-> en = true /\ skipped c = false /\ everyone_waits n)) /\
  (forall j c, nth_error (slaves n) j = Some c ->
     (slave_transfers n en j c = true <-> en = true /\ skipped c = false /\ everyone_waits n)).
Proof.
  intros Hx. split; intros i c H.
  - rewrite (master_eq n en i c H), (no_extra_blocked n c Hx)
      by (apply in_or_app; left; eapply nth_error_In, H).
    rewrite <- go_iff. destruct (go n), (skipped c), en; simpl; intuition congruence.
  - rewrite (slave_eq n en i c H), (no_extra_blocked n c Hx)
      by (apply in_or_app; right; eapply nth_error_In, H).
    rewrite <- go_iff. destruct (go n), (skipped c), en; simpl; intuition congruence.
Qed.

Definition set_sig (v : option bool) (c : chan) := mk_chan v (extra c) (skip c).

Lemma others_firstn_skipn {A} (l1 l2 : list A) c : others (length l1) (l1 ++ c :: l2) = l1 ++ l2.
Proof.
  unfold others. rewrite firstn_app, Nat.sub_diag, firstn_all. simpl. rewrite app_nil_r.
  f_equal. clear. induction l1 as [|a l1 IH]; [reflexivity|exact IH].
Qed.

Lemma c08_master_no_self ms1 ms2 ss c v en :
  rd_of_master (mk_node (ms1 ++ c :: ms2) ss) en (length ms1) c =
  rd_of_master (mk_node (ms1 ++ set_sig v c :: ms2) ss) en (length ms1) (set_sig v c).
Proof.
  unfold rd_of_master, ack_for_master. cbn [masters slaves]. rewrite !others_firstn_skipn. reflexivity.
Qed.

Lemma c08_slave_no_self ms ss1 ss2 c v en :
  vld_of_slave (mk_node ms (ss1 ++ c :: ss2)) en (length ss1) c =
  vld_of_slave (mk_node ms (ss1 ++ set_sig v c :: ss2)) en (length ss1) (set_sig v c).
Proof.
  unfold vld_of_slave, ack_for_slave. cbn [masters slaves]. rewrite !others_firstn_skipn. reflexivity.
Qed.

(** ack() *)
Lemma ack1_eq c : sig c <> None -> all_true (ack1 c) = skipped c || (offered c && negb (blocked c)).
Proof.
  unfold ack1, skipped, offered, blocked, extra_list.
  destruct (sig c) as [[]|]; [| |congruence]; destruct (skip c) as [[]|], (extra c) as [[]|]; reflexivity.
Qed.

Lemma flat_ack l : all_true (flat_map ack1 l) = true <-> forall c, In c l -> all_true (ack1 c) = true.
Proof.
  induction l as [|a l IH]; simpl; [split; [intros _ c []|reflexivity]|].
  rewrite all_true_app, andb_true_iff, IH. split.
  - intros [H1 H2] c [<-|Hc]; auto.
  - intros H; split; auto.
Qed.

Lemma node_ack_iff n :
  (forall c, In c (masters n ++ slaves n) -> sig c <> None) ->
  (node_ack n = true <->
   everyone_waits n /\
   forall c, In c (masters n ++ slaves n) -> skipped c = false -> blocked c = false).
Proof.
  intros Hs. unfold node_ack. rewrite all_true_app, andb_true_iff, !flat_ack. unfold everyone_waits. split.
  - intros [H1 H2]. repeat split; intros c Hc Hk.
    + specialize (H1 c Hc). rewrite ack1_eq, Hk in H1 by (apply Hs, in_or_app; auto).
      simpl in H1. apply andb_prop in H1. apply H1.
    + specialize (H2 c Hc). rewrite ack1_eq, Hk in H2 by (apply Hs, in_or_app; auto).
      simpl in H2. apply andb_prop in H2. apply H2.
    + assert (all_true (ack1 c) = true) as H by (apply in_app_or in Hc; destruct Hc; auto).
      rewrite ack1_eq, Hk in H by (apply Hs; exact Hc). apply andb_prop in H. destruct H as [_ H].
      destruct (blocked c); [discriminate|reflexivity].
  - intros [[H1 H2] H3]. split; intros c Hc.
    + rewrite ack1_eq by (apply Hs, in_or_app; auto). destruct (skipped c) eqn:E; [reflexivity|].
      rewrite H1, H3 by (auto; apply in_or_app; auto). reflexivity.
    + rewrite ack1_eq by (apply Hs, in_or_app; auto). destruct (skipped c) eqn:E; [reflexivity|].
      rewrite H2, H3 by (auto; apply in_or_app; auto). reflexivity.
Qed.

Lemma c08_ack n en :
  no_extra n -> (forall c, In c (masters n ++ slaves n) -> sig c <> None) ->
  (forall i c, nth_error (masters n) i = Some c ->
     master_transfers n en i c = en && negb (skipped c) && node_ack n) /\
  (forall j c, nth_error (slaves n) j = Some c ->
     slave_transfers n en j c = en && negb (skipped c) && node_ack n).
Proof.
  intros Hx Hs. destruct (c08 n en Hx) as [Hm Hsl].
  assert (node_ack n = true <-> everyone_waits n) as Ha.
  { rewrite (node_ack_iff n Hs). split; [tauto|]. intros H; split; [exact H|].
    intros c Hc _. apply (no_extra_blocked n c Hx Hc). }
  split; intros i c H; apply Bool.eq_iff_eq_true.
  - rewrite (Hm i c H), <- Ha. destruct en, (skipped c), (node_ack n); simpl; intuition congruence.
  - rewrite (Hsl i c H), <- Ha. destruct en, (skipped c), (node_ack n); simpl; intuition congruence.
Qed.

(** extraConds *)
Lemma c09_blocked n en :
  (forall i c, nth_error (masters n) i = Some c -> blocked c = true -> master_transfers n en i c = false) /\
  (forall j c, nth_error (slaves n) j = Some c -> blocked c = true -> slave_transfers n en j c = false).
Proof.
  split; intros i c H Hb.
  - rewrite (master_eq n en i c H), Hb. simpl. rewrite andb_false_r. reflexivity.
  - rewrite (slave_eq n en i c H), Hb. simpl. rewrite andb_false_r. reflexivity.
Qed.

Lemma c09_same n en (b : bool) :
  (forall c, In c (masters n ++ slaves n) -> blocked c = b) ->
  (forall i c, nth_error (masters n) i = Some c ->
     (master_transfers n en i c = true <-> en = true /\ skipped c = false /\ b = false /\ everyone_waits n)) /\
  (forall j c, nth_error (slaves n) j = Some c ->
     (slave_transfers n en j c = true <-> en = true /\ skipped c = false /\ b = false /\ everyone_waits n)).
Proof.
  intros Hb. split; intros i c H.
  - rewrite (master_eq n en i c H), (Hb c) by (apply in_or_app; left; eapply nth_error_In, H).
    rewrite <- go_iff. destruct (go n), (skipped c), en, b; simpl; intuition congruence.
  - rewrite (slave_eq n en i c H), (Hb c) by (apply in_or_app; right; eapply nth_error_In, H).
    rewrite <- go_iff. destruct (go n), (skipped c), en, b; simpl; intuition congruence.
Qed.

Definition ch (v : bool) := mk_chan (Some v) None None.
Definition che (v e : bool) := mk_chan (Some v) (Some e) None.
Definition chs (v s : bool) := mk_chan (Some v) None (Some s).

Lemma c09_bad :
  exists n i c j d, nth_error (masters n) i = Some c /\ nth_error (slaves n) j = Some d /\
    blocked c = true /\ skipped c = false /\
    master_transfers n true i c = false /\ slave_transfers n true j d = true.
Proof.
  exists (mk_node [che true false] [ch true]), 0, (che true false), 0, (ch true).
  repeat split.
Qed.
