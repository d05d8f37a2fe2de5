(** Concrete configurations of AxiInterconnectMatrix. *)
From Verif Require Import Base InterconnectModel XbarSpec MatrixModel MatrixSpec MatrixProofs.

Lemma sorted_iterates : iterates sorted.
Proof. intros l. split; [apply ss_nodup, sorted_ss|apply sorted_in]. Qed.
Lemma sorted_ascending : ascending sorted.
Proof.
  intros l. pose proof (sorted_ss l) as S. revert S. generalize (sorted l). clear. induction l as [|a l IH]; intros S [|i] [|j] x y Hi Hj Hij; cbn in *; try discriminate; try lia; apply Sorted.StronglySorted_inv in S; destruct S as [S F].
  - injection Hi as <-. rewrite Forall_forall in F. apply F. eapply nth_error_In. exact Hj.
  - apply (IH S i j x y Hi Hj). lia.
Qed.
(** CPython: a set of up to four small integers has a hash table of 8 slots, the slot of x is x mod 8 and the table is iterated from slot 0 *)
Definition cpython (l : list nat) : list nat := flat_map (fun h => filter (fun k => k mod 8 =? h) (sorted l)) (seq 0 8).
Lemma cpython_iterates : iterates cpython.
Proof.
  intros l. split.
  - unfold cpython. assert (forall hs, NoDup hs -> NoDup (flat_map (fun h => filter (fun k => k mod 8 =? h) (sorted l)) hs)) as H; [|apply H, seq_NoDup].
    induction hs as [|h hs IH]; intros Hn; [constructor|]. inversion Hn as [|? ? N1 N2]; subst. cbn [flat_map]. assert (forall x, In x (filter (fun k => k mod 8 =? h) (sorted l)) -> x mod 8 = h) as K by (intros x Hx; apply filter_In in Hx; apply Nat.eqb_eq, Hx).
    assert (NoDup (filter (fun k => k mod 8 =? h) (sorted l))) as N by (apply NoDup_filter, ss_nodup, sorted_ss). revert N K. generalize (filter (fun k => k mod 8 =? h) (sorted l)). induction l0 as [|x l0 IH0]; intros N K; [exact (IH N2)|]. cbn [app]. inversion N as [|? ? M1 M2]; subst. constructor.
    + intros Hx. apply in_app_or in Hx. destruct Hx as [Hx|Hx]; [contradiction|]. apply in_flat_map in Hx. destruct Hx as (h' & Hh & Hx). apply filter_In in Hx. destruct Hx as [_ Hx]. apply Nat.eqb_eq in Hx. rewrite (K x (or_introl eq_refl)) in Hx. subst. contradiction.
    + apply IH0; [exact M2|]. intros y Hy. apply K. right. exact Hy.
  - intros x. unfold cpython. rewrite in_flat_map. split; [intros (h & _ & H); apply filter_In in H; apply sorted_in, H|]. intros H. exists (x mod 8). split; [apply in_seq; pose proof (Nat.mod_upper_bound x 8); lia|]. apply filter_In. split; [apply sorted_in; exact H|apply Nat.eqb_refl].
Qed.

(** slave 0 is read only for everybody; master 2 and slave 3 are separate *)
Definition cfg_m : list (list (nat * access)) := [[(0, RD); (1, RW)]; [(1, RW); (2, RW)]; [(3, RW)]].
Definition cfg_s : list (nat * nat) := [(0, 64); (64, 64); (128, 64); (192, 64)].
Lemma cfg_may a m s : may cfg_m a m s <-> match nth_error cfg_m m with Some l => existsb (fun e => (fst e =? s) && match a, snd e with _, RW | RD, RD | WR, WR => true | _, _ => false end) l = true | None => False end.
Proof.
  split.
  - intros (l & e & -> & H & He). apply existsb_exists. exists (s, e). split; [exact H|]. cbn. rewrite Nat.eqb_refl. destruct He as [->| ->], a; reflexivity.
  - destruct (nth_error cfg_m m) as [l|] eqn:E; [|intros []]. intros H. apply existsb_exists in H. destruct H as ([s' e] & H & He). cbn in He. apply andb_true_iff in He. destruct He as [He Ha]. apply Nat.eqb_eq in He. subst s'. exists l, e. split; [exact E|]. split; [exact H|]. destruct a, e; (discriminate || auto).
Qed.
Lemma cfg_sees m s : sees cfg_m m s -> In (m, s) [(0, 0); (0, 1); (1, 1); (1, 2); (2, 3)].
Proof. intros (l & e & E & H). destruct m as [|[|[|m]]]; cbn in E; [injection E as <-..|destruct m; discriminate]; cbn in H; intuition; match goal with H : (_, _) = (_, _) |- _ => injection H as <- <- end; cbn; auto 10. Qed.
Lemma cfg_ok : valid_cfg cfg_m cfg_s /\ (forall a m s m', a <> RW -> sees cfg_m m s -> may cfg_m a m' s -> may cfg_m a m s) /\
  (forall a m, a <> RW -> m < length cfg_m -> exists s, may cfg_m a m s) /\ (forall s, s < length cfg_s -> exists m, sees cfg_m m s).
Proof.
  split; [|split; [|split]].
  - intros m s H. apply cfg_sees in H. cbn in H. intuition; match goal with H : (_, _) = (_, _) |- _ => injection H as <- <- end; cbn; lia.
  - intros a m s m' Ha H. apply cfg_sees in H. rewrite !cfg_may. cbn in H. intuition; match goal with H : (_, _) = (_, _) |- _ => injection H as <- <- end; destruct a; try congruence; cbn; auto; destruct m' as [|[|[|m']]]; cbn in *; try discriminate; auto; destruct m'; cbn in *; tauto.
  - intros a m Ha Hm. destruct m as [|[|[|m]]]; [exists 1|exists 1|exists 3|cbn in Hm; lia]; apply cfg_may; destruct a; reflexivity.
  - intros s Hs. destruct s as [|[|[|[|s]]]]; [exists 0; exists [(0, RD); (1, RW)], RD|exists 0; exists [(0, RD); (1, RW)], RW|exists 1; exists [(1, RW); (2, RW)], RW|exists 2; exists [(3, RW)], RW|cbn in Hs; lia]; cbn; auto.
Qed.
(** the examples of the refutations *)
Definition access_m : list (list (nat * access)) := [[(0, RD); (1, RW)]; [(0, RW); (1, RW)]].
Definition order_m : list (list (nat * access)) := [[(1, RW); (8, RW)]; map (fun s => (s, RW)) [0; 2; 3; 4; 5; 6; 7]].
Definition order_s : list (nat * nat) := map (fun s => (s * 16, 16)) (seq 0 9).
