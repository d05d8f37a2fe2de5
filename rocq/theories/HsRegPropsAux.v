From Verif Require Import Base BaseFacts StreamSpec StreamFacts HsRegModel HsRegSpec HsRegProofs.

Section Aux.
  Context {A : Type}.

  Lemma hsreg_any x l delay (init : list A) d0 s is :
    hsreg_init l delay init d0 = Some s ->
    let t := map hsr_obs (trace (hsreg_step x) s is) in
    queue_law (latency_cap l) (rcontents s) t /\ out_stable t.
  Proof.
    intros Hi t.
    assert (rok s /\ rcap s = latency_cap l) as [Hok Hc].
    { unfold hsreg_init in Hi. destruct l as [n|].
      - destruct (delay =? 0).
        + destruct ((1 <=? n) && (length init <=? n)) eqn:E; [|discriminate].
          injection Hi as <-. cbn. apply andb_prop in E. destruct E as [E _].
          apply Nat.leb_le in E. rewrite map_length, seq_length. split; [|reflexivity].
          destruct n; [lia|discriminate].
        + destruct ((n =? 2) && (delay =? 1)) eqn:E; [|discriminate].
          apply andb_prop in E. destruct E as [E _]. apply Nat.eqb_eq in E. subst n.
          destruct init as [|a [|b [|]]]; try discriminate; injection Hi as <-; cbn;
            (split; [discriminate|reflexivity]).
      - destruct (delay =? 0); [|discriminate].
        destruct init as [|a [|]]; try discriminate; injection Hi as <-; cbn; auto. }
    destruct (hsreg_run x s is Hok) as [[_ Hcap] E]. split.
    - eexists. split; [exact E|]. pose proof (rcontents_len (final (hsreg_step x) s is)). lia.
    - exact (hsreg_stable x s is Hok).
  Qed.

  Lemma contents_empty (f : nat -> A) k l : 
    contents (map (fun i => mk_stage KLat false (f i)) (seq k l)) = [].
  Proof. revert k. induction l as [|l IH]; intros k; [reflexivity|]. cbn. rewrite IH. reflexivity. Qed.

  Lemma contents_full k (f : nat -> A) l :
    contents (map (fun i => mk_stage KLat true (f i)) (seq k l)) = rev (map f (seq k l)).
  Proof. revert k. induction l as [|l IH]; intros k; [reflexivity|]. cbn. rewrite IH. reflexivity. Qed.

  Lemma map_nth_seq (l : list A) (d : nat -> A) :
    map (fun i => nth i l (d i)) (seq 0 (length l)) = l.
  Proof.
    apply nth_ext with (d := d 0) (d' := d 0).
    - rewrite map_length, seq_length. reflexivity.
    - rewrite map_length, seq_length. intros n Hn.
      rewrite nth_indep with (d' := (fun i => nth i l (d i)) 0) by (rewrite map_length, seq_length; exact Hn).
      rewrite (map_nth (fun i => nth i l (d i))), seq_nth by exact Hn. simpl. apply nth_indep. exact Hn.
  Qed.

  Lemma c06 x l delay d0 (s : hsreg A) is :
    hsreg_init l delay [] d0 = Some s ->
    let t := map hsr_obs (trace (hsreg_step x) s is) in
    queue_law (latency_cap l) [] t /\ out_stable t.
  Proof.
    intros Hi t. pose proof (hsreg_any x l delay [] d0 s is Hi) as H.
    replace (rcontents s) with (@nil A) in H; [exact H|].
    unfold hsreg_init in Hi. destruct l as [n|]; destruct (delay =? 0); cbn [has_init] in Hi.
    - destruct ((1 <=? n) && _); [|discriminate]. injection Hi as <-. cbn.
      symmetry. apply (contents_empty (fun i => match i with 0 | _ => d0 i end)).
    - destruct ((n =? 2) && _); [|discriminate]. injection Hi as <-. reflexivity.
    - injection Hi as <-. reflexivity.
    - discriminate.
  Qed.

  (** Ready chain break with an always ready consumer. *)
  Lemma brk_ready x (b : brk A) iv d :
    negb (oc0 b && oc1 b) = true ->
    let '(b', (rd, ov, od)) := brk_step x b iv d true in
    negb (oc0 b' && oc1 b') = true /\ rd = true /\ (oc0 b' || oc1 b') = iv /\
    forall iv' d', let '(_, (_, ov', od')) := brk_step x b' iv' d' true in
      ov' = iv /\ (iv = true -> od' = d).
  Proof.
    destruct b as [[] [] [] p q], iv; cbn; intros H; try discriminate;
      repeat split; intros; try discriminate; reflexivity.
  Qed.

  Lemma brk_latency x (b : brk A) js k i :
    negb (oc0 b && oc1 b) = true ->
    (forall j, In j js -> ri_rd j = true) ->
    nth_error js k = Some i -> k + 1 < length js ->
    exists o, nth_error (outs (hsreg_step x) (RBreak b) js) (k + 1) = Some o /\
      ro_vld o = ri_vld i /\ (ri_vld i = true -> ro_data o = ri_data i).
  Proof.
    revert b k. induction js as [|j js IH]; intros b k Hb Hrd Hk Hl; [destruct k; discriminate|].
    rewrite outs_cons.
    assert (ri_rd j = true) as Hj by (apply Hrd; left; reflexivity).
    pose proof (brk_ready x b (ri_vld j) (ri_data j) Hb) as H. 
    destruct (brk_step x b (ri_vld j) (ri_data j) true) as [b' [[rd ov] od]] eqn:E.
    assert (hsreg_step x (RBreak b) j = (RBreak b', mk_hro rd ov od)) as ->
      by (unfold hsreg_step; rewrite Hj, E; reflexivity).
    cbn [fst snd]. destruct H as [Hb' [_ [_ Ho]]].
    destruct k as [|k].
    - simpl in Hk. injection Hk as <-. destruct js as [|j2 js]; [simpl in Hl; lia|].
      rewrite outs_cons. specialize (Ho (ri_vld j2) (ri_data j2)).
      assert (ri_rd j2 = true) as Hj2 by (apply Hrd; right; left; reflexivity).
      destruct (brk_step x b' (ri_vld j2) (ri_data j2) true) as [b2 [[rd2 ov2] od2]] eqn:E2.
      assert (hsreg_step x (RBreak b') j2 = (RBreak b2, mk_hro rd2 ov2 od2)) as ->
        by (unfold hsreg_step; rewrite Hj2, E2; reflexivity).
      cbn. eexists. split; [reflexivity|]. exact Ho.
    - cbn [plus nth_error]. simpl in Hk, Hl. apply IH; auto; [|lia].
      intros j' H'. apply Hrd. right. exact H'.
  Qed.

  Lemma map_seq_KLat f k l b :
    Forall (fun s : stage A => sk s = KLat) (map (fun i => mk_stage KLat b (f i)) (seq k l)).
  Proof. apply Forall_forall. intros s Hs. apply in_map_iff in Hs. destruct Hs as [i [<- _]]. reflexivity. Qed.

  Lemma c06_lat x l d0 (s : hsreg A) js k i :
    hsreg_init l 0 [] d0 = Some s ->
    (forall j, In j js -> ri_rd j = true) ->
    nth_error js k = Some i -> k + latency_of l < length js ->
    exists o, nth_error (outs (hsreg_step x) s js) (k + latency_of l) = Some o /\
      ro_vld o = ri_vld i /\ (ri_vld i = true -> ro_data o = ri_data i).
  Proof.
    intros Hi Hrd Hk Hl. destruct l as [n|]; cbn [hsreg_init Nat.eqb] in Hi.
    - destruct ((1 <=? n) && _) eqn:E; [|discriminate]. injection Hi as <-.
      rewrite hsreg_outs_chain. cbn [latency_of has_init] in *.
      set (ss := map _ _).
      assert (length ss = n) as Hn by (unfold ss; rewrite map_length, seq_length; reflexivity).
      rewrite <- Hn in *. apply chain_latency; auto.
      apply map_seq_KLat.
    - injection Hi as <-. apply brk_latency; auto.
  Qed.

  Lemma c06_rd x l d0 (s : hsreg A) js :
    hsreg_init l 0 [] d0 = Some s ->
    (forall j, In j js -> ri_rd j = true) ->
    forall o, In o (outs (hsreg_step x) s js) -> ro_rd o = true.
  Proof.
    intros Hi.
    assert (match s with RChain ss => Forall (fun s => sk s = KLat) ss
                    | RBreak b => negb (oc0 b && oc1 b) = true end) as Hs.
    { destruct l as [n|]; cbn [hsreg_init Nat.eqb] in Hi.
      - destruct ((1 <=? n) && _) eqn:E; [|discriminate]. injection Hi as <-. apply map_seq_KLat.
      - injection Hi as <-. reflexivity. }
    clear Hi. revert s Hs. induction js as [|j js IH]; intros s Hs Hrd o; [intros []|].
    assert (ri_rd j = true) as Hj by (apply Hrd; left; reflexivity).
    rewrite outs_cons. destruct s as [ss|b].
    - pose proof (chain_all_ready ss (ri_vld j) (ri_data j) Hs) as H.
      destruct (chain_step ss (ri_vld j) (ri_data j) true) as [ss' [[rd v] d]] eqn:E.
      assert (hsreg_step x (RChain ss) j = (RChain ss', mk_hro rd v d)) as ->
        by (unfold hsreg_step; rewrite Hj, E; reflexivity).
      cbn [fst snd]. destruct H as [H1 H2]. intros [<-|Ho]; [exact H1|].
      apply (IH (RChain ss') H2); [|exact Ho]. intros j' H'. apply Hrd. right. exact H'.
    - pose proof (brk_ready x b (ri_vld j) (ri_data j) Hs) as H.
      destruct (brk_step x b (ri_vld j) (ri_data j) true) as [b' [[rd v] d]] eqn:E.
      assert (hsreg_step x (RBreak b) j = (RBreak b', mk_hro rd v d)) as ->
        by (unfold hsreg_step; rewrite Hj, E; reflexivity).
      cbn [fst snd]. destruct H as [H1 [H2 _]]. intros [<-|Ho]; [exact H2|].
      apply (IH (RBreak b') H1); [|exact Ho]. intros j' H'. apply Hrd. right. exact H'.
  Qed.

  (** INIT_DATA filling all the stages (one word for LATENCY=(1,2)). *)
  Lemma c07 x l delay (init : list A) d0 s is :
    hsreg_init l delay init d0 = Some s ->
    length init = latency_of l ->
    let t := map hsr_obs (trace (hsreg_step x) s is) in
    queue_law (latency_cap l) (rev init) t /\ out_stable t.
  Proof.
    intros Hi Hl t. pose proof (hsreg_any x l delay init d0 s is Hi) as H.
    replace (rcontents s) with (rev init) in H; [exact H|].
    unfold hsreg_init in Hi. destruct l as [n|]; destruct (delay =? 0); cbn [latency_of] in Hl.
    - destruct ((1 <=? n) && _) eqn:E; [|discriminate]. injection Hi as <-. cbn [rcontents].
      assert (has_init init = true) as ->.
      { apply andb_prop in E. destruct E as [E _]. apply Nat.leb_le in E.
        destruct init; [simpl in Hl; lia|reflexivity]. }
      rewrite (contents_full 0 (fun i => nth i init (d0 i))), <- Hl, map_nth_seq. reflexivity.
    - destruct ((n =? 2) && _) eqn:E; [|discriminate].
      apply andb_prop in E. destruct E as [E _]. apply Nat.eqb_eq in E.
      destruct init as [|a [|b [|]]]; try discriminate; injection Hi as <-; [simpl in Hl; lia|reflexivity].
    - destruct init as [|a [|]]; try discriminate. injection Hi as <-. reflexivity.
    - discriminate.
  Qed.
End Aux.

Definition HI (v : bool) (d : nat) (r : bool) := mk_hri v d r.
Definition c06_hist := [HI true 1 false; HI true 2 false; HI true 3 false; HI false 0 true; HI true 4 true; HI false 0 false].
Definition c06_ready_hist := [HI true 1 true; HI false 9 true; HI true 2 true; HI true 3 true; HI false 9 true; HI false 9 true].
Definition rd_cycles n := repeat (HI false 9 true) n.

Lemma c07_order :
  exists s, hsreg_init (LInt 2) 0 [7; 8] (fun _ => 0) = Some s /\
    let t := map hsr_obs (trace (hsreg_step 0) s (rd_cycles 3)) in
    accepted t = [] /\ delivered t = [8; 7].
Proof. eexists. split; [reflexivity|]. vm_compute. split; reflexivity. Qed.

Lemma c07_spurious :
  forall d0 : nat -> nat, exists s, hsreg_init (LInt 2) 0 [7] d0 = Some s /\
    let t := map hsr_obs (trace (hsreg_step 0) s (rd_cycles 3)) in
    accepted t = [] /\ delivered t = [d0 1; 7].
Proof. intros d0. eexists. split; [reflexivity|]. cbv. split; reflexivity. Qed.
