From Verif Require Import Base BaseFacts TimerModel SpiModel SpiSpec SpiTimers.

Lemma sh_in_len l b : length (sh_in l b) = length l.
Proof. destruct l; [reflexivity|]. cbn [sh_in length]. rewrite app_length. cbn. lia. Qed.

Section P.
  Variables PRESC SS h a : nat.
  Hypothesis Hh : PRESC / 2 = 2 ^ h.
  Hypothesis Hs : SS = 2 ^ a.
  Hypothesis Ha : a <= 2.
  Notation step := (sp_step PRESC SS).
  Definition H : nat := 2 ^ h.
  Definition W : nat := 2 * SS * H.
  Definition E : nat := 16 * H.

  Lemma Hpos : 0 < H. Proof. apply pow2_pos. Qed.
  Lemma W_pow : W = 2 ^ (h + a + 1). Proof. unfold W, H. rewrite Hs, !Nat.pow_add_r. cbn [Nat.pow]. lia. Qed.
  Lemma E_pow : E = 2 ^ (h + 4). Proof. unfold E, H. rewrite !Nat.pow_add_r. cbn [Nat.pow]. lia. Qed.
  Lemma periods_eq : periods PRESC SS = [2 ^ h; 2 ^ (h + a + 1); 2 ^ (h + 4)].
  Proof.
    unfold periods, HALF. rewrite Hh, <- W_pow, <- E_pow. unfold W, E, H. f_equal. f_equal; [|f_equal]; lia.
  Qed.
  Lemma SS_cases : SS = 1 \/ SS = 2 \/ SS = 4.
  Proof. rewrite Hs. destruct a as [|[|[|?]]]; cbn; auto. lia. Qed.

  Definition cnt (s : sp_state) : nat := nth 0 (p_tim s) 0.
  Definition en (s : sp_state) (i : sp_in) : bool := negb (p_eow s) && i_vld i.
  Definition iwd (s : sp_state) (i : sp_in) : bool := en s i && (cnt s mod W =? 0).
  Definition rst (s : sp_state) (i : sp_in) : bool := negb (en s i) || (p_req s && iwd s i).
  Definition half (s : sp_state) (i : sp_in) : bool := en s i && (cnt s mod H =? 0).
  Definition eow (s : sp_state) (i : sp_in) : bool := (cnt s =? 0) && en s i && negb (rst s i).

  Lemma ticks_eq s i v : cnt s < E ->
    snd (sp_ticks PRESC SS s i v) = [half s i; iwd s i; (cnt s =? 0) && en s i && negb (sp_rst s i v)] /\
    fst (sp_ticks PRESC SS s i v) 0 = if sp_rst s i v || (en s i && (cnt s =? 0)) then E - 1 else if en s i then cnt s - 1 else cnt s.
  Proof.
    intros Hc. unfold sp_ticks. rewrite periods_eq.
    pose proof (family_ticks h a Ha (cell (p_tim s)) (sp_en s i) (sp_rst s i v)) as F. rewrite <- E_pow, <- W_pow in F.
    specialize (F Hc). rewrite <- E_pow, <- W_pow. exact F.
  Qed.
  Lemma stable_eq s i v : cnt s < E -> stableb PRESC SS s i v = Bool.eqb (iwd s i) v.
  Proof. intros Hc. unfold stableb. rewrite (proj1 (ticks_eq s i v Hc)). reflexivity. Qed.
  Lemma iwd_eq s i : cnt s < E -> stableb PRESC SS s i true = iwd s i.
  Proof. intros Hc. rewrite stable_eq by assumption. destruct (iwd s i); reflexivity. Qed.

  (** one cycle, explicitly *)
  Lemma step_eq s i : cnt s < E -> let s' := fst (step s i) in
    let ci' := if half s i then negb (p_ci s) else p_ci s in
    cnt s' = (if rst s i || (en s i && (cnt s =? 0)) then E - 1 else if en s i then cnt s - 1 else cnt s) /\
    p_ci s' = ci' /\ p_edge s' = ci' /\
    p_co s' = (if negb (p_req s) && half s i then negb (p_co s) else p_co s) /\
    p_req s' = (if eow s i then i_last i else if iwd s i then false else p_req s) /\
    p_eow s' = eow s i /\
    p_txi s' = (if (negb ci' && p_edge s) && negb (p_req s) then (if p_txi s then (if p_eow s then false else true) else true)
                else if p_eow s then false else p_txi s) /\
    p_tx s' = (if (negb ci' && p_edge s) && negb (p_req s) then (if p_txi s then sh_in (p_tx s) false else i_dout i) else p_tx s) /\
    p_rx s' = (if (ci' && negb (p_edge s)) && negb (p_req s) then sh_in (p_rx s) (i_miso i) else p_rx s).
  Proof.
    intros Hc. unfold sp_step. rewrite iwd_eq by assumption.
    pose proof (ticks_eq s i (iwd s i) Hc) as [T1 T2].
    destruct (sp_ticks PRESC SS s i (iwd s i)) as [tim' ticks]. cbn [fst snd] in *. subst ticks.
    unfold cnt at 1. cbn [fst p_tim p_ci p_edge p_co p_req p_eow p_txi p_tx p_rx nth map].
    rewrite T2. repeat split; reflexivity.
  Qed.
  Lemma out_eq s i : snd (step s i) = mk_spo (p_eow s) (p_rx s) (p_co s) (hd false (p_tx s)) (negb (i_vld i)).
  Proof. unfold sp_step. destruct (sp_ticks _ _ _ _ _). reflexivity. Qed.

  (** between words *)
  Record IdleS (r : bool) (s : sp_state) : Prop := mk_idle {
    d_cnt : cnt s = E - 1; d_ci : p_ci s = true; d_co : p_co s = true; d_edge : p_edge s = true; d_req : p_req s = r;
    d_eow : p_eow s = false; d_txi : p_txi s = false; d_rx : length (p_rx s) = 8 }.
  (** the response *)
  Record RespS (r : bool) (s : sp_state) : Prop := mk_resp {
    r_cnt : cnt s = E - 1; r_ci : p_ci s = true; r_co : p_co s = true; r_edge : p_edge s = true; r_req : p_req s = r;
    r_eow : p_eow s = true; r_rx : length (p_rx s) = 8 }.
  (** the wait for the slave *)
  Record WaitS (c : nat) (s : sp_state) : Prop := mk_wait {
    t_c : E - W <= c < E; t_cnt : cnt s = c; t_ci : p_ci s = Nat.odd (c / H); t_co : p_co s = true; t_edge : p_edge s = p_ci s;
    t_req : p_req s = true; t_eow : p_eow s = false; t_txi : p_txi s = false; t_rx : length (p_rx s) = 8 }.
  (** a word *)
  Record WordS (bits : list bool) (c : nat) (s : sp_state) : Prop := mk_word {
    w_c : c < E; w_cnt : cnt s = c; w_ci : p_ci s = Nat.odd (c / H); w_co : p_co s = Nat.odd (c / H); w_edge : p_edge s = p_ci s;
    w_req : p_req s = false; w_eow : p_eow s = false; w_txi : p_txi s = (c / H <? 15);
    w_tx : c / H < 15 -> p_tx s = skipn ((14 - c / H) / 2) bits ++ repeat false ((14 - c / H) / 2);
    w_rx : length (p_rx s) = 8 }.

  Lemma E_ge : 16 <= E. Proof. unfold E. pose proof Hpos. lia. Qed.
  Lemma W_E : W <= 8 * H /\ 2 * H <= W. Proof. unfold W. destruct SS_cases as [-> |[-> | ->]]; lia. Qed.
  Lemma top_level : (E - 1) / H = 15.
  Proof. symmetry. pose proof Hpos. apply (Nat.div_unique _ _ _ (H - 1)); unfold E; lia. Qed.

  Lemma idle_step r s b : IdleS r s -> IdleS r (fst (step s (idle_in b))).
  Proof.
    intros []. pose proof E_ge. destruct (step_eq s (idle_in b)) as (S1 & S2 & S3 & S4 & S5 & S6 & S7 & S8 & S9); [lia|].
    unfold eow, rst, iwd, half, en in *. rewrite ?d_eow0, ?d_ci0, ?d_co0, ?d_edge0, ?d_req0, ?d_txi0 in *. cbn [idle_in i_vld andb negb orb] in *.
    rewrite ?andb_false_r in *. cbn [andb negb orb] in *. constructor; congruence.
  Qed.
  Lemma resp_step r s w b : RespS r s -> IdleS r (fst (step s (busy_in w b))).
  Proof.
    intros []. pose proof E_ge. destruct (step_eq s (busy_in w b)) as (S1 & S2 & S3 & S4 & S5 & S6 & S7 & S8 & S9); [lia|].
    unfold eow, rst, iwd, half, en in *. rewrite ?r_eow0, ?r_ci0, ?r_co0, ?r_edge0, ?r_req0 in *. cbn [busy_in i_vld andb negb orb] in *.
    rewrite ?andb_false_r in *. cbn [andb negb orb] in *. constructor; congruence.
  Qed.
  Lemma idle_wait s : IdleS true s -> WaitS (E - 1) s.
  Proof. intros []. pose proof E_ge. pose proof W_E. pose proof Hpos. constructor; try congruence; [lia|]. rewrite top_level. exact d_ci0. Qed.
  Lemma idle_word bits s : IdleS false s -> WordS bits (E - 1) s.
  Proof. intros []. pose proof E_ge. constructor; rewrite ?top_level; try congruence; try lia; try assumption; try (intros; exfalso; lia). Qed.

  (** counting down *)
  Lemma dec_same c : 0 < c mod H -> (c - 1) / H = c / H.
  Proof.
    intros Hm. pose proof Hpos. pose proof (Nat.div_mod c H ltac:(lia)). pose proof (Nat.mod_upper_bound c H ltac:(lia)).
    assert (G : forall q r, c = q + r -> 0 < r -> c - 1 = q + (r - 1)) by (intros; lia).
    symmetry. apply (Nat.div_unique _ _ _ (c mod H - 1)); [lia|]. apply G; assumption.
  Qed.
  Lemma dec_tick c : 0 < c -> c mod H = 0 -> (c - 1) / H = c / H - 1 /\ 1 <= c / H.
  Proof.
    intros Hc Hm. pose proof Hpos. pose proof (Nat.div_mod c H ltac:(lia)) as D.
    assert (c / H <> 0) by (intros Z; rewrite Z in D; lia). assert (1 <= c / H) by lia. split; [|assumption].
    symmetry. apply (Nat.div_unique _ _ _ (H - 1)); [lia|]. rewrite Nat.mul_sub_distr_l. nia.
  Qed.
  Lemma level_lt c : c < E -> c / H <= 15.
  Proof. intros Hc. pose proof Hpos. assert (c / H < 16); [|lia]. apply Nat.div_lt_upper_bound; [lia|]. unfold E in Hc. lia. Qed.
  Lemma mod_W_end c : E - W <= c < E -> c mod W = 0 -> c = E - W.
  Proof.
    intros Hc Hm. pose proof Hpos. pose proof W_E. pose proof (Nat.div_mod c W ltac:(lia)) as D. rewrite Hm in D.
    assert (exists k, E = W * k) as [k Hk]. { unfold E, W. destruct SS_cases as [-> |[-> | ->]]; [exists 8|exists 4|exists 2]; lia. }
    assert (c / W < k) by nia. assert (k - 1 <= c / W) by nia. nia.
  Qed.
  Lemma mod_W_at : (E - W) mod W = 0 /\ (E - W) mod H = 0 /\ Nat.odd ((E - W) / H) = false /\ 0 < E - W.
  Proof.
    pose proof Hpos. pose proof W_E.
    assert (exists k, E - W = k * W) as [k Hk]. { unfold E, W. destruct SS_cases as [-> |[-> | ->]]; [exists 7|exists 3|exists 1]; lia. }
    assert (exists j, E - W = (2 * j) * H) as [j Hj]. { unfold E, W. destruct SS_cases as [-> |[-> | ->]]; [exists 7|exists 6|exists 4]; lia. }
    split; [rewrite Hk; apply Nat.mod_mul; lia|]. rewrite Hj. split; [apply Nat.mod_mul; lia|]. rewrite Nat.div_mul by lia.
    split; [rewrite Nat.odd_mul; reflexivity|]. rewrite <- Hj. unfold E. lia.
  Qed.
  Lemma odd_pred k : 1 <= k -> Nat.odd (k - 1) = negb (Nat.odd k).
  Proof. intros Hk. destruct k; [lia|]. cbn [Nat.sub]. rewrite Nat.sub_0_r, Nat.odd_succ, <- Nat.negb_odd, negb_involutive. reflexivity. Qed.

  Lemma wait_step c s w b : WaitS c s ->
    let s' := fst (step s (busy_in w b)) in if c =? E - W then WordS (w_bits w) (E - 1) s' else WaitS (c - 1) s'.
  Proof.
    intros [] s'. pose proof Hpos. pose proof W_E. destruct (step_eq s (busy_in w b)) as (S1 & S2 & S3 & S4 & S5 & S6 & S7 & S8 & S9); [lia|]. fold s' in S1, S2, S3, S4, S5, S6, S7, S8, S9.
    unfold eow, rst, iwd, half, en in *. rewrite ?t_eow0, ?t_co0, ?t_edge0, ?t_req0, ?t_txi0, ?t_cnt0 in *. cbn [busy_in i_vld andb negb orb] in *.
    rewrite ?andb_false_r in *. cbn [andb negb orb] in *.
    destruct mod_W_at as (M1 & M2 & M3 & M4).
    destruct (Nat.eqb_spec c (E - W)) as [->|Hne].
    - rewrite M1, M2, M3 in *. destruct (Nat.eqb_spec (E - W) 0) as [Z|Z]; [lia|]. cbn [Nat.eqb andb negb orb] in *.
      rewrite t_ci0 in *. cbn [negb] in *. constructor; rewrite ?top_level; try congruence; try lia; try assumption; try (intros; exfalso; lia).
    - assert (Hm : (c mod W =? 0) = false). { apply Nat.eqb_neq. intros Z. apply Hne. apply mod_W_end; assumption. }
      rewrite Hm in *. destruct (Nat.eqb_spec c 0) as [Z|Z]; [lia|]. cbn [andb negb orb] in *.
      assert (Hk : Nat.odd ((c - 1) / H) = if c mod H =? 0 then negb (p_ci s) else p_ci s).
      { rewrite t_ci0. destruct (Nat.eqb_spec (c mod H) 0) as [Hz|Hz]; [|rewrite dec_same by lia; reflexivity].
        destruct (dec_tick c ltac:(lia) Hz) as [-> ?]. apply odd_pred. assumption. }
      constructor; try congruence; lia.
  Qed.

  Lemma word_step bits c s b last : length bits = 8 -> WordS bits c s ->
    let s' := fst (step s (mk_spi true bits last b)) in
    p_rx s' = (if (c mod H =? 0) && negb (Nat.odd (c / H)) then sh_in (p_rx s) b else p_rx s) /\
    (((c mod H =? 0) && negb (Nat.odd (c / H))) = true -> p_tx s' = p_tx s) /\
    p_co s' = (if c mod H =? 0 then negb (Nat.odd (c / H)) else Nat.odd (c / H)) /\
    if c =? 0 then RespS last s' else WordS bits (c - 1) s'.
  Proof.
    intros Hb [] s'. pose proof Hpos. pose proof E_ge. pose proof (level_lt c w_c0) as Hl.
    destruct (step_eq s (mk_spi true bits last b)) as (S1 & S2 & S3 & S4 & S5 & S6 & S7 & S8 & S9); [lia|]. fold s' in S1, S2, S3, S4, S5, S6, S7, S8, S9.
    unfold eow, rst, iwd, half, en in *. rewrite ?w_eow0, ?w_edge0, ?w_req0, ?w_cnt0 in *. cbn [i_vld i_last i_miso i_dout andb negb orb] in *.
    rewrite ?andb_false_r, ?andb_true_r in *. cbn [andb negb orb] in *. rewrite w_ci0, w_co0 in *.
    assert (Hrx : p_rx s' = (if (c mod H =? 0) && negb (Nat.odd (c / H)) then sh_in (p_rx s) b else p_rx s)).
    { rewrite S9. destruct (c mod H =? 0); cbn [andb]; destruct (Nat.odd (c / H)); reflexivity. }
    assert (Htx : ((c mod H =? 0) && negb (Nat.odd (c / H))) = true -> p_tx s' = p_tx s).
    { rewrite S8. destruct (c mod H =? 0); cbn [andb]; [|discriminate]. intros Z. rewrite Z. reflexivity. }
    assert (Hlen : length (p_rx s') = 8). { rewrite Hrx. match goal with |- context [if ?x then _ else _] => destruct x end; rewrite ?sh_in_len; assumption. }
    split; [exact Hrx|]. split; [exact Htx|]. split; [exact S4|].
    destruct (Nat.eqb_spec c 0) as [->|Hc].
    - rewrite Nat.mod_0_l, Nat.div_0_l in * by lia. cbn [Nat.eqb Nat.odd Nat.even negb andb] in S1, S2, S3, S4, S5, S6, S7, S8. constructor; congruence.
    - destruct (Nat.eqb_spec (c mod H) 0) as [Hz|Hz].
      + destruct (dec_tick c ltac:(lia) Hz) as [D1 D2].
        assert (Ho : Nat.odd ((c - 1) / H) = negb (Nat.odd (c / H))). { rewrite D1. apply odd_pred. assumption. }
        constructor; try congruence; try lia.
        * rewrite S5. destruct (c mod W =? 0); reflexivity.
        * rewrite S7, w_txi0. destruct (Nat.ltb_spec ((c - 1) / H) 15) as [L|L]; [|lia].
          destruct (Nat.odd (c / H)) eqn:O; cbn [negb andb].
          -- destruct (Nat.ltb_spec (c / H) 15); reflexivity.
          -- destruct (Nat.ltb_spec (c / H) 15); [reflexivity|]. assert (Z : c / H = 15) by lia. rewrite Z in O. discriminate O.
        * intros _. rewrite S8, w_txi0. rewrite D1. destruct (Nat.odd (c / H)) eqn:O; cbn [negb andb].
          -- destruct (Nat.ltb_spec (c / H) 15) as [L|L].
             ++ rewrite w_tx0 by assumption.
                assert (Hk : exists j, c / H = 2 * j + 1) by (apply Nat.odd_spec; exact O). destruct Hk as [j Hj]. rewrite Hj in *.
                replace (14 - (2 * j + 1 - 1)) with (2 * (7 - j)) by lia. replace (14 - (2 * j + 1)) with (1 + (6 - j) * 2) by lia.
                rewrite Nat.div_add, (Nat.mul_comm 2 (7 - j)), Nat.div_mul by lia. change (1 / 2) with 0. cbn [Nat.add]. replace (7 - j) with (S (6 - j)) by lia.
                assert (6 - j < 8) by lia. set (m := 6 - j) in *. clearbody m.
                do 8 (destruct bits as [|? bits]; [discriminate Hb|]). destruct bits; [|discriminate Hb].
                do 8 (destruct m as [|m]; [reflexivity|]). lia.
             ++ replace (c / H) with 15 by lia. change ((14 - (15 - 1)) / 2) with 0. cbn [skipn repeat]. rewrite app_nil_r. reflexivity.
          -- assert (L : c / H < 15). { destruct (Nat.eq_dec (c / H) 15) as [Z|Z]; [|lia]. rewrite Z in O. discriminate O. }
             rewrite w_tx0 by assumption.
             assert (Hk : exists j, c / H = 2 * j). { apply Nat.even_spec. rewrite <- Nat.negb_odd, O. reflexivity. } destruct Hk as [j Hj]. rewrite Hj in *.
             replace (14 - (2 * j - 1)) with (1 + (7 - j) * 2) by lia. replace (14 - (2 * j)) with (0 + (7 - j) * 2) by lia.
             rewrite !Nat.div_add by lia. reflexivity.
      + assert (D1 : (c - 1) / H = c / H) by (apply dec_same; lia).
        constructor; rewrite ?D1; try congruence; try lia.
        * rewrite S5. destruct (c mod W =? 0); reflexivity.
        * rewrite S7, w_txi0. destruct (Nat.odd (c / H)); reflexivity.
        * intros L. rewrite S8. destruct (Nat.odd (c / H)); cbn [negb andb]; apply w_tx0; assumption.
  Qed.

  Lemma edges_cons s i i2 is : edges (trace step s (i :: i2 :: is)) =
    (if negb (p_co s) && p_co (fst (step s i)) then [(i_miso i, hd false (p_tx s))] else []) ++ edges (trace step (fst (step s i)) (i2 :: is)).
  Proof.
    rewrite (trace_cons _ s), (trace_cons _ (fst (step s i))). cbn [edges]. rewrite (out_eq s i), (out_eq (fst (step s i)) i2). cbn [o_clk o_mosi].
    destruct (_ && _); reflexivity.
  Qed.
  Lemma held_cons s i i2 is : (p_co s = false -> p_co (fst (step s i)) = true -> p_tx (fst (step s i)) = p_tx s) ->
    mosi_held (trace step (fst (step s i)) (i2 :: is)) -> mosi_held (trace step s (i :: i2 :: is)).
  Proof.
    intros H1 H2. rewrite (trace_cons _ s). rewrite (trace_cons _ (fst (step s i))) in *. cbn [mosi_held]. split; [|exact H2].
    rewrite (out_eq s i), (out_eq (fst (step s i)) i2). cbn [o_clk o_mosi]. intros A B. rewrite H1 by assumption. reflexivity.
  Qed.

  Definition resp (s : sp_state) (t : list (sp_in * sp_out)) : Prop :=
    exists t0 c, t = t0 ++ [c] /\ o_rd (snd c) = true /\ o_din (snd c) = skipn (length (edges t)) (p_rx s ++ map fst (edges t)) /\
      Forall (fun c => o_rd (snd c) = false) t0.

  Lemma word_run w c : length (w_bits w) = 8 -> forall s ms, WordS (w_bits w) c s -> length ms = c + 2 ->
    let t := trace step s (map (busy_in w) ms) in
    map snd (edges t) = skipn (7 - c / H / 2) (w_bits w) /\ mosi_held t /\ resp s t /\ IdleS (w_last w) (final step s (map (busy_in w) ms)).
  Proof.
    intros Hb. induction c as [|c IH]; intros s ms HW Hl t.
    - destruct ms as [|b0 [|b1 [|? ?]]]; try discriminate Hl.
      pose proof (word_step (w_bits w) 0 s b0 (w_last w) Hb HW) as HX. cbv zeta in HX. change (mk_spi true (w_bits w) (w_last w) b0) with (busy_in w b0) in HX.
      destruct HX as (X1 & X2 & X3 & X4).
      pose proof (w_co _ _ _ HW) as Wco. pose proof (w_tx _ _ _ HW) as Wtx. pose proof (w_eow _ _ _ HW) as Weow. pose proof (w_rx _ _ _ HW) as Wrx.
      pose proof Hpos. rewrite Nat.mod_0_l, Nat.div_0_l in * by lia. cbn [Nat.eqb Nat.odd Nat.even negb andb] in *.
      specialize (X2 eq_refl). specialize (Wtx ltac:(lia)).
      assert (He : edges t = [(b0, nth 7 (w_bits w) false)]).
      { unfold t. cbn [map]. rewrite edges_cons. rewrite Wco, X3. cbn [negb andb app]. rewrite trace_cons. cbn [edges trace]. unfold trace, outs. cbn [run snd combine edges]. 
        rewrite Wtx. change ((14 - 0) / 2) with 7. cbn [busy_in i_miso]. f_equal. f_equal. generalize (w_bits w) Hb. intros l Hl2. do 8 (destruct l as [|? l]; [discriminate Hl2|]). reflexivity. }
      split; [|split; [|split]].
      + rewrite He. change (0 / 2) with 0. cbn [map snd Nat.sub]. generalize (w_bits w) Hb. intros l Hl2. do 8 (destruct l as [|? l]; [discriminate Hl2|]). destruct l; [reflexivity|discriminate Hl2].
      + unfold t. cbn [map]. apply held_cons; [auto|]. rewrite trace_cons. exact I.
      + unfold resp. rewrite He. exists [(busy_in w b0, snd (step s (busy_in w b0)))], (busy_in w b1, snd (step (fst (step s (busy_in w b0))) (busy_in w b1))).
        split; [reflexivity|]. rewrite (out_eq (fst (step s (busy_in w b0))) (busy_in w b1)). cbn [snd o_rd o_din]. split; [exact (r_eow _ _ X4)|]. split.
        * rewrite X1. destruct (p_rx s); [discriminate Wrx|]. reflexivity.
        * repeat constructor. cbn [snd]. rewrite out_eq. exact Weow.
      + cbn [map]. rewrite !final_cons. apply resp_step. exact X4.
    - destruct ms as [|b0 ms]; [discriminate Hl|]. assert (Hl' : length ms = c + 2) by (cbn [length] in Hl; lia).
      pose proof (word_step (w_bits w) (S c) s b0 (w_last w) Hb HW) as HX. cbv zeta in HX. change (mk_spi true (w_bits w) (w_last w) b0) with (busy_in w b0) in HX.
      destruct HX as (X1 & X2 & X3 & X4). cbn [Nat.eqb] in X4. replace (S c - 1) with c in X4 by lia.
      pose proof (w_co _ _ _ HW) as Wco. pose proof (w_tx _ _ _ HW) as Wtx. pose proof (w_eow _ _ _ HW) as Weow. pose proof (w_rx _ _ _ HW) as Wrx.
      pose proof (w_c _ _ _ HW) as Wc. pose proof (level_lt (S c) Wc) as Lc.
      destruct (IH _ ms X4 Hl') as (Y1 & Y2 & (t0 & cc & Y3 & Y4 & Y5 & Y6) & Y7).
      set (s' := fst (step s (busy_in w b0))) in *. set (t' := trace step s' (map (busy_in w) ms)) in *.
      assert (Ht : t = (busy_in w b0, snd (step s (busy_in w b0))) :: t') by (unfold t; cbn [map]; rewrite trace_cons; reflexivity).
      set (rise := (S c mod H =? 0) && negb (Nat.odd (S c / H))) in *.
      assert (Hr : negb (p_co s) && p_co s' = rise).
      { rewrite Wco, X3. unfold rise. destruct (S c mod H =? 0); destruct (Nat.odd (S c / H)); reflexivity. }
      assert (He : edges t = (if rise then [(b0, hd false (p_tx s))] else []) ++ edges t').
      { unfold t, t'. destruct ms as [|b1 ms]; [cbn in Hl'; lia|]. cbn [map]. rewrite edges_cons. fold s'. rewrite Hr. reflexivity. }
      split; [|split; [|split]].
      + rewrite He, map_app, Y1. unfold rise in *. destruct (Nat.eqb_spec (S c mod H) 0) as [Hz|Hz].
        * destruct (dec_tick (S c) ltac:(lia) Hz) as [D1 D2]. replace (S c - 1) with c in D1 by lia. rewrite D1. cbn [andb].
          destruct (Nat.odd (S c / H)) eqn:O; cbn [negb map app snd].
          -- assert (Hk : exists j, S c / H = 2 * j + 1) by (apply Nat.odd_spec; exact O). destruct Hk as [j Hj]. rewrite Hj.
             replace (2 * j + 1 - 1) with (0 + j * 2) by lia. replace (2 * j + 1) with (1 + j * 2) by lia. rewrite !Nat.div_add by lia. reflexivity.
          -- assert (Hk : exists j, S c / H = 2 * j). { apply Nat.even_spec. rewrite <- Nat.negb_odd, O. reflexivity. } destruct Hk as [j Hj]. rewrite Hj in *.
             rewrite Wtx by lia. replace (2 * j - 1) with (1 + (j - 1) * 2) by lia. replace (14 - 2 * j) with (0 + (7 - j) * 2) by lia. rewrite (Nat.mul_comm 2 j).
             rewrite !Nat.div_add, Nat.div_mul by lia. change (1 / 2) with 0. change (0 / 2) with 0. cbn [Nat.add].
             replace (7 - (j - 1)) with (S (7 - j)) by lia. assert (7 - j < 8) by lia. set (m := 7 - j) in *. clearbody m. generalize (w_bits w) Hb. intros l Hl2.
             do 8 (destruct l as [|? l]; [discriminate Hl2|]). destruct l; [|discriminate Hl2].
             do 8 (destruct m as [|m]; [reflexivity|]). lia.
        * assert (D1 : c / H = S c / H) by (replace c with (S c - 1) at 1 by lia; apply dec_same; lia). rewrite D1. reflexivity.
      + unfold t. destruct ms as [|b1 ms]; [cbn in Hl'; lia|]. cbn [map]. apply held_cons; [|exact Y2]. fold s'.
        intros A B. apply X2. rewrite <- Hr, A, B. reflexivity.
      + exists ((busy_in w b0, snd (step s (busy_in w b0))) :: t0), cc. split; [rewrite Ht, Y3; reflexivity|]. split; [exact Y4|]. split.
        * rewrite Y5, He, X1. destruct rise; [|reflexivity]. destruct (p_rx s) as [|r0 R]; [discriminate Wrx|].
          cbn [app length map fst sh_in skipn]. rewrite <- app_assoc. reflexivity.
        * constructor; [|exact Y6]. cbn [snd]. rewrite out_eq. exact Weow.
      + cbn [map]. rewrite final_cons. exact Y7.
  Qed.

  Lemma fst_trace is : forall s, map fst (trace step s is) = is.
  Proof. induction is; intros s; [reflexivity|]. rewrite trace_cons. cbn [map fst]. rewrite IHis. reflexivity. Qed.
  Lemma edges_high t1 t2 : Forall (fun c : sp_in * sp_out => o_clk (snd c) = true) t1 -> edges (t1 ++ t2) = edges t2.
  Proof.
    induction t1 as [|[i o] t1 IH]; intros HF; [reflexivity|]. inversion HF as [|? ? X1 X2]; subst. cbn [snd] in X1. rewrite <- IH by assumption. cbn [app edges].
    destruct (t1 ++ t2) as [|[i' o'] t']; [reflexivity|]. rewrite X1. reflexivity.
  Qed.
  Lemma held_high t1 t2 : Forall (fun c : sp_in * sp_out => o_clk (snd c) = true) t1 -> mosi_held t2 -> mosi_held (t1 ++ t2).
  Proof.
    intros HF H2. induction t1 as [|[i o] t1 IH]; [exact H2|]. inversion HF as [|? ? X1 X2]; subst. cbn [snd] in X1. specialize (IH X2). cbn [app mosi_held].
    destruct (t1 ++ t2) as [|[i' o'] t']; [exact I|]. split; [rewrite X1; discriminate|exact IH].
  Qed.
  (** cycles with a high clock and without a response *)
  Definition calm (c : sp_in * sp_out) : Prop := o_clk (snd c) = true /\ o_rd (snd c) = false.

  Lemma idle_run r g : forall s, IdleS r s -> Forall calm (trace step s (map idle_in g)) /\ IdleS r (final step s (map idle_in g)).
  Proof.
    induction g as [|b g IH]; intros s HI; [split; [constructor|exact HI]|]. cbn [map]. rewrite trace_cons, final_cons.
    destruct (IH _ (idle_step r s b HI)) as [F1 F2]. split; [|exact F2]. constructor; [|exact F1].
    unfold calm. cbn [snd]. rewrite out_eq. split; [exact (d_co _ _ HI)|exact (d_eow _ _ HI)].
  Qed.
  Lemma wait_run w m : forall c s, WaitS c s -> length m = c - (E - W) + 1 ->
    Forall calm (trace step s (map (busy_in w) m)) /\ WordS (w_bits w) (E - 1) (final step s (map (busy_in w) m)).
  Proof.
    induction m as [|b m IH]; intros c s HI Hl; [cbn [length] in Hl; lia|]. cbn [map]. rewrite trace_cons, final_cons.
    assert (HC : calm (busy_in w b, snd (step s (busy_in w b)))).
    { unfold calm. cbn [snd]. rewrite out_eq. split; [exact (t_co _ _ HI)|exact (t_eow _ _ HI)]. }
    pose proof (wait_step c s w b HI) as HS. cbv zeta in HS. pose proof (t_c _ _ HI) as Hc. cbn [length] in Hl.
    destruct (Nat.eqb_spec c (E - W)) as [Z|Z].
    - destruct m; [|cbn [length] in Hl; lia]. split; [repeat constructor; apply HC|exact HS].
    - destruct (IH _ _ HS ltac:(lia)) as [F1 F2]. split; [constructor; assumption|exact F2].
  Qed.
  Lemma calm_high t : Forall calm t -> Forall (fun c => o_clk (snd c) = true) t.
  Proof. apply Forall_impl. intros c [X _]. exact X. Qed.
  Lemma calm_rd t : Forall calm t -> Forall (fun c => o_rd (snd c) = false) t.
  Proof. apply Forall_impl. intros c [_ X]. exact X. Qed.

  Lemma segment r w s : IdleS r s -> kept H SS r w ->
    exchanged H SS r w (trace step s (inputs w)) /\ IdleS (w_last w) (final step s (inputs w)).
  Proof.
    intros HI [Hb Hm]. unfold inputs. set (g := w_gap w).
    pose proof Hpos as P0. pose proof W_E as P1.
    destruct (idle_run r g s HI) as [G1 G2]. set (s1 := final step s (map idle_in g)) in *.
    assert (exists pre post, w_miso w = pre ++ post /\ length pre = (if r then 2 * SS * H else 0) /\ length post = E - 1 + 2 /\
      Forall calm (trace step s1 (map (busy_in w) pre)) /\ WordS (w_bits w) (E - 1) (final step s1 (map (busy_in w) pre))) as (pre & post & M1 & M2 & M3 & M4 & M5).
    { unfold word_time in Hm. destruct r.
      - exists (firstn W (w_miso w)), (skipn W (w_miso w)). rewrite firstn_skipn. split; [reflexivity|].
        assert (L1 : length (firstn W (w_miso w)) = W). { rewrite firstn_length. unfold W in *. lia. }
        assert (L2 : length (skipn W (w_miso w)) = E - 1 + 2). { rewrite skipn_length. unfold W, E in *. lia. }
        split; [exact L1|]. split; [exact L2|]. apply (wait_run w _ (E - 1)); [apply idle_wait; exact G2|]. rewrite L1. unfold E. lia.
      - exists [], (w_miso w). split; [reflexivity|]. split; [reflexivity|]. split; [unfold E; lia|]. split; [constructor|]. apply idle_word. exact G2. }
    rewrite M1, map_app. set (s2 := final step s1 (map (busy_in w) pre)) in *.
    destruct (word_run w (E - 1) Hb s2 post M5 M3) as (X1 & X2 & (t0 & c & X3 & X4 & X5 & X6) & X7).
    rewrite top_level in X1. change (7 - 15 / 2) with 0 in X1. cbn [skipn] in X1.
    set (t2 := trace step s2 (map (busy_in w) post)) in *.
    assert (Ht : trace step s (map idle_in g ++ map (busy_in w) pre ++ map (busy_in w) post) =
                 (trace step s (map idle_in g) ++ trace step s1 (map (busy_in w) pre)) ++ t2).
    { rewrite !trace_app. fold s1. fold s2. unfold t2. rewrite app_assoc. reflexivity. }
    set (t1 := trace step s (map idle_in g) ++ trace step s1 (map (busy_in w) pre)) in *.
    assert (HC : Forall calm t1) by (apply Forall_app; auto).
    assert (L1 : length t1 = length g + if r then 2 * SS * H else 0).
    { unfold t1. rewrite app_length, <- M2, <- (map_length fst), fst_trace, <- (map_length fst (trace step s1 _)), fst_trace, !map_length. reflexivity. }
    assert (He : edges (t1 ++ t2) = edges t2) by (apply edges_high; apply calm_high; assumption).
    split; [|rewrite !final_app; exact X7].
    unfold exchanged. split; [|split; [|split; [|split; [|split]]]].
    - rewrite fst_trace. unfold inputs. rewrite M1, map_app. reflexivity.
    - rewrite Ht, He. exact X1.
    - rewrite Ht. apply held_high; [apply calm_high|]; assumption.
    - rewrite Ht, He. exists (t1 ++ t0), c. split; [rewrite X3, app_assoc; reflexivity|]. split; [exact X4|]. split.
      + rewrite X5. pose proof (w_rx _ _ _ M5) as R8. assert (L8 : length (edges t2) = 8) by (rewrite <- (map_length snd), X1; exact Hb).
        rewrite L8, skipn_app, skipn_all2, R8 by lia. reflexivity.
      + apply Forall_app. split; [apply calm_rd; assumption|assumption].
    - fold g. rewrite Ht, <- L1, firstn_app, firstn_all, Nat.sub_diag. cbn [firstn]. rewrite app_nil_r. apply calm_high. assumption.
    - generalize (map idle_in g ++ map (busy_in w) pre ++ map (busy_in w) post). intros is. clear. revert s.
      induction is as [|i is IH]; intros s; [constructor|]. rewrite trace_cons. constructor; [cbn [fst snd]; rewrite out_eq; reflexivity|apply IH].
  Qed.

  Theorem spi_words ws : forall r s, IdleS r s -> all_kept H SS r ws ->
    all_exchanged H SS r ws (trace step s (concat (map inputs ws))).
  Proof.
    induction ws as [|w ws IH]; intros r s HI HK; [reflexivity|]. destruct HK as [K1 K2]. cbn [map concat all_exchanged].
    destruct (segment r w s HI K1) as [X1 X2]. rewrite trace_app. eexists _, _. split; [reflexivity|]. split; [exact X1|]. apply IH; assumption.
  Qed.
  Lemma idle_init tx rx : length rx = 8 -> IdleS true (sp_init PRESC SS tx rx).
  Proof.
    intros Hr. constructor; try reflexivity; [|exact Hr]. unfold cnt, sp_init. cbn [p_tim map nth]. rewrite periods_eq, family_init by assumption. rewrite <- E_pow. reflexivity.
  Qed.
  Theorem spi_from_reset tx rx ws : length rx = 8 -> all_kept (PRESC / 2) SS true ws ->
    all_exchanged (PRESC / 2) SS true ws (trace step (sp_init PRESC SS tx rx) (concat (map inputs ws))).
  Proof. rewrite Hh. intros. apply spi_words; [apply idle_init|]; assumption. Qed.

  Lemma cnt_bound tx rx is : cnt (final step (sp_init PRESC SS tx rx) is) < E.
  Proof.
    pose proof E_ge. induction is as [|i is IH] using rev_ind.
    - change (cnt (sp_init PRESC SS tx rx) < E). unfold cnt, sp_init. cbn [p_tim map nth]. rewrite periods_eq, family_init by assumption. rewrite <- E_pow. lia.
    - rewrite final_snoc. destruct (step_eq _ i IH) as (S1 & _). rewrite S1. destruct (_ || _); [lia|]. destruct (en _ i); lia.
  Qed.
  Theorem spi_stable tx rx is i : exists! v, stable PRESC SS (final step (sp_init PRESC SS tx rx) is) i v.
  Proof.
    set (s := final _ _ _). pose proof (cnt_bound tx rx is) as Hc. fold s in Hc. exists (iwd s i).
    assert (HX : forall v, stable PRESC SS s i v <-> iwd s i = v). { intros v. unfold stable. rewrite (proj1 (ticks_eq s i v Hc)). reflexivity. }
    split; [apply HX; reflexivity|]. intros v Hv. apply HX. exact Hv.
  Qed.
End P.
