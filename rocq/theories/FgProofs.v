From Verif Require Import Base BaseFacts FgModel FgSpec.

Section P.
  Variables MAX_LEN DW : nat.
  Notation step := (g_step MAX_LEN DW).
  Notation w := (g_w MAX_LEN).

  (** the rest of a frame from the counter value c *)
  Definition tail_of (c : nat) : list (nat * bool) := map (fun k => (k mod 2 ^ DW, k =? 0)) (rev (seq 0 (c + 1))).
  Lemma tail_S c : tail_of (S c) = (S c mod 2 ^ DW, false) :: tail_of c.
  Proof.
    unfold tail_of. replace (S c + 1) with (S (c + 1)) by lia. rewrite seq_S, rev_app_distr. cbn [rev app map Nat.add].
    f_equal. f_equal; [f_equal; lia|]. destruct (Nat.eqb_spec (c + 1) 0); [lia|reflexivity].
  Qed.
  Lemma tail_0 : tail_of 0 = [(0 mod 2 ^ DW, true)].
  Proof. reflexivity. Qed.

  Lemma sent_cons s i is : sent (trace step s (i :: is)) =
    (if g_en s && gi_rd i then [(g_cntr s mod 2 ^ DW, g_cntr s =? 0)] else []) ++ sent (trace step (fst (step s i)) is).
  Proof. rewrite trace_cons. cbn [sent]. unfold g_step at 1 2 3. cbn [snd go_v go_d go_l]. destruct (g_en s && gi_rd i); reflexivity. Qed.
  Lemma step_no_len s i : no_len i -> fst (step s i) =
    mk_g (if gi_rd i && g_en s then if g_cntr s =? 0 then g_len s else wdec w (g_cntr s) else g_cntr s)
         (match gi_en i with Some e => Nat.odd e | None => g_en s end) (g_len s).
  Proof. unfold no_len, g_step. intros ->. reflexivity. Qed.

  Lemma sent_frames is : forall s, g_cntr s < 2 ^ w -> g_len s < 2 ^ w -> Forall no_len is ->
    exists n rest, tail_of (g_cntr s) ++ concat (repeat (frame_of DW (g_len s)) n) = sent (trace step s is) ++ rest.
  Proof.
    induction is as [|i is IH]; intros s Hc Hl HF.
    - exists 0. eexists. reflexivity.
    - inversion HF as [|? ? H1 H2]; subst. rewrite sent_cons, step_no_len by assumption.
      rewrite (andb_comm (gi_rd i)).
      destruct (g_en s && gi_rd i).
      + destruct (g_cntr s) as [|c] eqn:Ec; cbn [Nat.eqb].
        * match goal with |- context [trace _ ?s' is] => destruct (IH s') as (n & rest & Hn); [exact Hl|exact Hl|assumption|] end.
          cbn [g_cntr g_len] in Hn. exists (S n), rest. rewrite tail_0. cbn [repeat concat app]. f_equal. exact Hn.
        * rewrite wdec_pos by lia.
          match goal with |- context [trace _ ?s' is] => destruct (IH s') as (n & rest & Hn); [cbn [g_cntr]; lia|exact Hl|assumption|] end.
          cbn [g_cntr g_len] in Hn. exists n, rest. rewrite tail_S. cbn [app]. f_equal.
          replace (S c - 1) with c in * by lia. exact Hn.
      + match goal with |- context [trace _ ?s' is] => destruct (IH s') as (n & rest & Hn); [exact Hc|exact Hl|assumption|] end.
        exists n, rest. exact Hn.
  Qed.

  Theorem gen_frames s en rd L is : L < 2 ^ w -> Forall no_len is ->
    frames_prefix (frame_of DW L) (sent (trace step (fst (step s (mk_gi en (Some L) rd))) is)).
  Proof.
    intros HL HF. set (s1 := fst _).
    assert (E1 : g_cntr s1 = L /\ g_len s1 = L). { unfold s1, g_step. cbn [gi_len fst g_cntr g_len]. rewrite wrap_small by assumption. auto. }
    destruct E1 as [E1 E2].
    destruct (sent_frames is s1) as (n & rest & Hn); [lia|lia|assumption|].
    exists (S n), rest. rewrite <- Hn, E1, E2. reflexivity.
  Qed.
  (** nothing is sent unless enabled, a word in each cycle of an enabled generator with ready *)
  Theorem gen_rate is : forall s e, g_en s = e -> Forall (fun i => gi_en i = None) is ->
    map moves (trace step s is) = map (fun i => e && gi_rd i) is.
  Proof.
    induction is as [|i is IH]; intros s e He HF; [reflexivity|].
    inversion HF; subst. rewrite trace_cons. cbn [map]. f_equal. apply IH; [|assumption].
    unfold g_step. cbn [fst g_en]. rewrite H1. reflexivity.
  Qed.
  Theorem gen_rate_after s en l rd is : Forall (fun i => gi_en i = None) is ->
    map moves (trace step (fst (step s (mk_gi (Some en) l rd))) is) = map (fun i => Nat.odd en && gi_rd i) is.
  Proof. apply gen_rate. reflexivity. Qed.
  Theorem gen_held is : forall s, Forall quiet is -> held (trace step s is).
  Proof.
    induction is as [|i is IH]; intros s HF; [exact I|].
    inversion HF as [|? ? [H1 H2] H3]; subst. specialize (IH (fst (step s i)) H3).
    rewrite trace_cons. destruct is as [|i2 is]; [exact I|]. rewrite trace_cons in *.
    cbn [held] in *. split; [|exact IH].
    intros Hv Hr. rewrite (step_no_len s i H1), Hr, H2. cbn [andb]. unfold g_step in *. cbn [snd go_v go_d go_l g_en g_cntr] in *. auto.
  Qed.
End P.
