From Verif Require Import Base BaseFacts HexModel HexSpec.

Lemma pending_iff h : final hx_step false h = true <-> waiting h.
Proof.
  induction h as [|c h IH] using rev_ind.
  - cbn. split; [discriminate|]. intros (a & c & b & H & _). destruct a; discriminate.
  - rewrite final_snoc. cbn [hx_step fst]. split.
    + intros H. destruct (final hx_step false h) eqn:E.
      * destruct (proj1 IH eq_refl) as (a & q & b & -> & H1 & H2 & H3). exists a, q, (b ++ [c]). rewrite <- app_assoc. split; [reflexivity|].
        split; [exact H1|]. split; [exact H2|]. intros x Hx. apply in_app_or in Hx. destruct Hx as [Hx|[<-|[]]]; [exact (H3 x Hx)|]. destruct (xn_rd c); [discriminate|reflexivity].
      * apply andb_prop in H. destruct H as [H1 H2]. exists h, c, []. split; [reflexivity|]. split; [exact H1|]. split; [destruct (xn_rd c); [discriminate|reflexivity]|]. intros x [].
    + intros (a & q & b & E & H1 & H2 & H3). destruct b as [|z b] using rev_ind.
      * apply app_inj_tail in E. destruct E as [-> ->]. rewrite H1, H2. destruct (final hx_step false a); reflexivity.
      * clear IHb. assert (E' : h ++ [c] = (a ++ q :: b) ++ [z]) by (rewrite E, <- app_assoc; reflexivity).
        apply app_inj_tail in E'. destruct E' as [-> <-].
        assert (X : waiting (a ++ q :: b)).
        { exists a, q, b. split; [reflexivity|]. split; [exact H1|]. split; [exact H2|]. intros x Hx. apply H3. apply in_or_app. left. exact Hx. }
        apply IH in X. rewrite X. rewrite (H3 c); [reflexivity|]. apply in_or_app. right. left. reflexivity.
Qed.

Lemma pending_pin h c : xr_pending (snd (hx_step (final hx_step false h) c)) = true <-> waiting h.
Proof. cbn. apply pending_iff. Qed.

Lemma kept_deliver is : forall s c b, kept (c :: is) -> xn_raise c = true -> b = trace hx_step s (c :: is) ->
  (exists q, In q b /\ xn_rd (fst q) = true) -> exists q, In q b /\ caught q = true.
Proof.
  induction is as [|c' is IH]; intros s c b HK Hr -> (q & Hq & Hrd); rewrite trace_cons in *.
  - destruct Hq as [<-|[]]. exists (c, snd (hx_step s c)). split; [left; reflexivity|]. unfold caught. cbn [fst snd hx_step xr_vld] in *. rewrite Hr, Hrd. reflexivity.
  - destruct (xn_rd c) eqn:Ec.
    + exists (c, snd (hx_step s c)). split; [left; reflexivity|]. unfold caught. cbn [fst snd hx_step xr_vld]. rewrite Hr, Ec. reflexivity.
    + destruct Hq as [<-|Hq]; [cbn [fst] in Hrd; congruence|]. destruct HK as [HK HK'].
      destruct (IH (fst (hx_step s c)) c' _ HK' (HK Hr Ec) eq_refl (ex_intro _ q (conj Hq Hrd))) as (z & Hz & Hc).
      exists z. split; [right; exact Hz|exact Hc].
Qed.
Lemma kept_app a : forall b, kept (a ++ b) -> kept b.
Proof. induction a as [|x a IH]; intros b H; [exact H|]. apply IH. cbn [app kept] in H. destruct (a ++ b); [exact I|apply H]. Qed.
Lemma trace_split is : forall s a c b, trace hx_step s is = a ++ c :: b -> exists ia ib s', is = ia ++ fst c :: ib /\ c :: b = trace hx_step s' (fst c :: ib).
Proof.
  induction is as [|i is IH]; intros s a c b H; [destruct a; discriminate|]. rewrite trace_cons in H. destruct a as [|x a]; cbn [app] in H.
  - injection H as E1 E2. exists [], is, s. subst c b. split; [reflexivity|]. cbn [fst]. rewrite trace_cons. reflexivity.
  - injection H as _ E. destruct (IH _ _ _ _ E) as (ia & ib & s' & -> & E'). exists (i :: ia), ib, s'. split; [reflexivity|exact E'].
Qed.
Lemma c153_kept is : kept is -> delivered (trace hx_step false is).
Proof.
  intros HK a c b E Hr Hq. destruct (trace_split _ _ _ _ _ E) as (ia & ib & s' & -> & E'). apply kept_app in HK.
  exact (kept_deliver ib s' (fst c) (c :: b) HK Hr E' Hq).
Qed.
