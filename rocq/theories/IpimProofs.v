From Coq Require Import Lia.
From Verif Require Import Base BaseFacts Mi32IcModel Mi32IcSpec Mi32IcProofs IpimModel IpimSpec.

Section P.
  Context {P D : Type}.
  Variables (SLAVES : list (nat * nat)) (AW : nat).
  Hypothesis HS : im_map_ok SLAVES AW.

  Lemma im_cs_range s a : In s SLAVES -> (im_cs AW a s = true <-> im_has s a).
  Proof.
    intros Hin. destruct (proj1 HS s Hin) as ((k & Hk & Hs) & Hm & Hf). rewrite <- (cs_range s a k); [|lia|exact Hs|exact Hm].
    unfold im_cs, ic_cs, im_bits, wrap. rewrite Hs, log2ceil_pred by lia. rewrite (Nat.mod_small (fst s / 2 ^ k)); [reflexivity|].
    apply Nat.div_lt_upper_bound; [pose proof (pow2_pos k); lia|]. rewrite <- Nat.pow_add_r. replace (k + (AW - k)) with AW by lia.
    pose proof (pow2_pos k). lia.
  Qed.
  Lemma or_none f (i : im_in P D) l : forall k, (forall s, In s l -> im_cs AW (mi_addr i) s = false) -> im_or AW f i l k = false.
  Proof. induction l as [|s l IH]; intros k H; cbn [im_or]; [reflexivity|]. rewrite (H s (or_introl eq_refl)), IH; [reflexivity|]. intros; apply H; right; assumption. Qed.
  Lemma or_one f (i : im_in P D) l : forall k j s, nth_error l j = Some s -> im_cs AW (mi_addr i) s = true ->
    (forall j' s', nth_error l j' = Some s' -> im_cs AW (mi_addr i) s' = true -> j' = j) ->
    im_or AW f i l k = f (mi_s i (k + j)) /\ im_mux AW i l k = Some (r_data (mi_s i (k + j))).
  Proof.
    induction l as [|q l IH]; intros k j s Hj Hc Hu; [destruct j; discriminate|]. cbn [im_or im_mux]. destruct j as [|j]; cbn [nth_error] in Hj.
    - injection Hj as ->. rewrite Hc, Nat.add_0_r. split; [|reflexivity]. rewrite or_none; [apply orb_false_r|].
      intros s' Hs'. destruct (im_cs AW (mi_addr i) s') eqn:E; [|reflexivity]. apply In_nth_error in Hs'. destruct Hs' as (j' & Hj').
      specialize (Hu (S j') s' Hj' E). discriminate.
    - destruct (im_cs AW (mi_addr i) q) eqn:E; [specialize (Hu 0 q eq_refl E); discriminate|].
      destruct (IH (k + 1) j s Hj Hc) as [A B].
      { intros j' s' Hj' Hc'. specialize (Hu (S j') s' Hj' Hc'). lia. }
      replace (k + S j) with (k + 1 + j) by lia. split; [exact A|exact B].
  Qed.

  Lemma im_route (i : im_in P D) : im_routed SLAVES i (im_o SLAVES AW i).
  Proof.
    split; [|split].
    - intros j. cbn [mo_cs im_o]. unfold im_scs. destruct (nth_error SLAVES j) as [s|] eqn:E.
      + rewrite andb_true_iff, (im_cs_range s _ (nth_error_In _ _ E)). split; intros [A B]; (split; [exact A|]).
        * exists s. auto.
        * destruct B as (s' & E' & B). injection E' as <-. exact B.
      + split; [discriminate|]. intros (_ & s & E' & _). discriminate.
    - intros j s Hj Ha. pose proof (nth_error_In _ _ Hj) as Hin. pose proof (proj2 (im_cs_range s _ Hin) Ha) as Hc.
      assert (Hu : forall j' s', nth_error SLAVES j' = Some s' -> im_cs AW (mi_addr i) s' = true -> j' = j).
      { intros j' s' Hj' Hc'. apply (im_cs_range s' _ (nth_error_In _ _ Hj')) in Hc'. exact (proj2 HS _ _ _ _ _ Hj' Hj Hc' Ha). }
      cbn [mo_addr mo_p mo_err mo_rdack mo_wrack mo_data im_o].
      split; [|split; [reflexivity|]].
      + unfold im_saddr. rewrite Hj. destruct (proj1 HS s Hin) as ((k & Hk & Hs) & Hm & _). unfold im_bits, wrap. rewrite Hs, log2ceil_pred by lia.
        unfold im_has in Ha. rewrite Hs in *. pose proof (pow2_pos k). pose proof (Nat.div_mod (fst s) (2 ^ k) ltac:(lia)) as E1. rewrite Hm in E1.
        set (o := mi_addr i - fst s). replace (mi_addr i) with (o + fst s / 2 ^ k * 2 ^ k) by (unfold o; nia). rewrite Nat.mod_add by lia. rewrite Nat.mod_small by (unfold o; lia). lia.
      + pose proof (fun f => or_one f i SLAVES 0 j s Hj Hc Hu) as H. cbn [Nat.add] in H.
        split; [apply H|]. split; [apply H|]. split; [apply H|]. apply (H r_err).
    - intros Hn. cbn [mo_err mo_rdack mo_wrack im_o].
      assert (H : forall s, In s SLAVES -> im_cs AW (mi_addr i) s = false).
      { intros s Hs. destruct (im_cs AW (mi_addr i) s) eqn:E; [|reflexivity]. exfalso. apply (im_cs_range s _ Hs) in E. apply In_nth_error in Hs. destruct Hs as (j & Hj). exact (Hn j s Hj E). }
      rewrite !or_none by exact H. auto.
  Qed.
End P.
