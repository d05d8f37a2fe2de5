From Verif Require Import Base BaseFacts TimerModel TimerSpec TimerProofs MdioModel MdioSpec.

Section P.
  Variable D : nat.
  Hypothesis HD : 1 <= D.
  Notation step := (md_step D).

  Definition tk (s : md_state) : bool := nth 0 (snd (timers_step [D] (m_tim s) (true, false))) false.
  Definition at_time (n : nat) (s : md_state) : Prop := m_tim s = final (timers_step [D]) (timers_init [D]) (repeat (true, false) n).

  Lemma at_time_step n s i : at_time n s -> at_time (S n) (fst (step s i)).
  Proof.
    unfold at_time. intros H. unfold md_step. destruct (timers_step [D] (m_tim s) (true, false)) as [tim' ticks] eqn:E.
    cbn [fst m_tim]. replace (S n) with (n + 1) by lia. rewrite repeat_app, final_app. rewrite <- H. cbn [repeat]. rewrite final_cons, E. reflexivity.
  Qed.
  Lemma enabled_repeat n : forall a, fold_left (fun n (i : bool * bool) => let '(en, rst) := i in if rst then 0 else if en then n + 1 else n) (repeat (true, false) n) a = a + n.
  Proof. induction n; intros a; cbn [repeat fold_left]; [lia|]. rewrite IHn. lia. Qed.
  Lemma tk_time n s : at_time n s -> tk s = ((n + 1) mod D =? 0).
  Proof.
    unfold at_time, tk. intros ->.
    pose proof (timers_correct [D] (repeat (true, false) n) true 0 D (Forall_cons _ HD (Forall_nil _)) eq_refl) as H.
    unfold enabled_since in H. rewrite enabled_repeat in H. cbn [Nat.add andb] in H.
    destruct (snd _) as [|b l]; cbn in H |- *; [discriminate|]. inversion H. reflexivity.
  Qed.
  Lemma at_time_final h tx rx : at_time (length h) (final step (md_init D tx rx) h).
  Proof.
    induction h as [|i h IH] using rev_ind; [reflexivity|]. rewrite final_snoc, app_length. cbn [length].
    replace (length h + 1) with (S (length h)) by lia. apply at_time_step. exact IH.
  Qed.

  (** the registers after a cycle *)
  Lemma next_clk s i : m_clk (fst (step s i)) = if tk s then negb (m_clk s) else m_clk s.
  Proof. unfold md_step, tk. destruct (timers_step _ _ _); reflexivity. Qed.
  Lemma next_cnt s i : m_cnt (fst (step s i)) =
    if st_eqb (m_st s) Idle then 0 else if tk s && m_clk s then winc (log2ceil CNTR_MAX) (m_cnt s) else m_cnt s.
  Proof. unfold md_step, tk. destruct (timers_step _ _ _); reflexivity. Qed.
  Lemma next_rx s i : m_rx (fst (step s i)) =
    if st_eqb (m_st s) Idle then forallb (fun p => Bool.eqb (fst p) (snd p)) (combine (i_op i) OP_READ) else m_rx s.
  Proof. unfold md_step, tk. destruct (timers_step _ _ _); reflexivity. Qed.
  Lemma next_st s i : m_st (fst (step s i)) =
      match m_st s with
      | Idle => if i_vld i && negb (m_rdv s) then Pre else Idle
      | Pre => if (tk s && m_clk s) && (m_cnt s =? 31) then AddrBlock else Pre
      | AddrBlock => if (tk s && m_clk s) && (m_cnt s =? 45) then Ta else AddrBlock
      | Ta => if (m_cnt s =? 47) && ((m_rx s && (tk s && m_clk s)) || (negb (m_rx s) && (tk s && negb (m_clk s)))) then Data else Ta
      | Data => if (tk s && negb (m_clk s)) && (m_cnt s =? 63) then Idle else Data
      end.
  Proof. unfold md_step, tk. destruct (timers_step _ _ _); reflexivity. Qed.
  Lemma next_tx s i : m_tx (fst (step s i)) =
    if st_eqb (m_st s) Idle && i_vld i then write_frame i
    else if (tk s && m_clk s) && (st_eqb (m_st s) AddrBlock || st_eqb (m_st s) Data || st_eqb (m_st s) Ta) then shl1 (m_tx s) else m_tx s.
  Proof. unfold md_step, tk. destruct (timers_step _ _ _); reflexivity. Qed.
  Lemma next_rxreg s i : m_rxreg (fst (step s i)) =
    if st_eqb (m_st s) Data && m_rx s && (tk s && negb (m_clk s)) then shift_in (m_rxreg s) (i_io i) else m_rxreg s.
  Proof. unfold md_step, tk. destruct (timers_step _ _ _); reflexivity. Qed.
  Lemma next_rdv s i : m_rdv (fst (step s i)) =
    if st_eqb (m_st s) Idle && i_rd i then false else if (tk s && m_clk s) && (m_cnt s =? 45) then m_rx s else m_rdv s.
  Proof. unfold md_step, tk. destruct (timers_step _ _ _); reflexivity. Qed.
  Lemma out_eq s i : snd (step s i) =
     mk_mo (st_eqb (m_st s) Idle && negb (m_rdv s)) (st_eqb (m_st s) Idle && m_rdv s) (m_rxreg s) (m_clk s)
           (negb (st_eqb (m_st s) Idle) && negb (hd false (m_tx s)) &&
            (st_eqb (m_st s) AddrBlock || ((st_eqb (m_st s) Data || st_eqb (m_st s) Ta) && negb (m_rx s)))).
  Proof. unfold md_step, tk. destruct (timers_step _ _ _); reflexivity. Qed.

    Lemma shift_in_len l b : length (shift_in l b) = length l.
    Proof. destruct l; [reflexivity|]. cbn. rewrite app_length. cbn. lia. Qed.
    Lemma lastn_app k (a b : list bool) : k <= length b -> last_bits k (a ++ b) = last_bits k b.
    Proof.
      intros H. unfold last_bits. rewrite app_length, skipn_app. rewrite skipn_all2 by lia. cbn [app]. f_equal. lia.
    Qed.
    Lemma mod_next n : (n + 1) mod D = if (n + 1) mod D =? 0 then 0 else n mod D + 1.
    Proof.
      destruct (Nat.eqb_spec ((n + 1) mod D) 0) as [E|E]; [assumption|].
      pose proof (Nat.div_mod n D ltac:(lia)) as Hn. pose proof (Nat.mod_upper_bound n D ltac:(lia)).
      destruct (Nat.eq_dec (n mod D + 1) D) as [E2|E2].
      - exfalso. apply E. symmetry. apply (Nat.mod_unique _ _ (n / D + 1)); [lia|]. rewrite Nat.mul_add_distr_l. lia.
      - symmetry. apply (Nat.mod_unique _ _ (n / D)); lia.
    Qed.
    Lemma mod_tick n : (n + 1) mod D = 0 -> n mod D = D - 1.
    Proof.
      intros E. pose proof (Nat.div_mod n D ltac:(lia)) as Hn. pose proof (Nat.mod_upper_bound n D ltac:(lia)).
      destruct (Nat.eq_dec (n mod D + 1) D) as [E2|E2]; [lia|]. exfalso.
      assert ((n + 1) mod D = n mod D + 1). { symmetry. apply (Nat.mod_unique _ _ (n / D)); lia. } lia.
    Qed.

  Section Frame.
    Variables (rx : bool) (T : list bool).
    Hypothesis HT : length T = 32.
    Definition stf (f : nat) (c : bool) : st_t :=
      if f <? 32 then Pre else if f <? 46 then AddrBlock else if f <? 47 then Ta
      else if f =? 47 then (if negb rx && c then Data else Ta) else Data.
    Record Inv (f : nat) (c : bool) (s : md_state) : Prop := mk_inv {
      v_f : f <= 63; v_clk : m_clk s = c; v_cnt : m_cnt s = f; v_rx : m_rx s = rx; v_st : m_st s = stf f c;
      v_tx : m_tx s = skipn (f - 32) T ++ repeat false (f - 32);
      v_rdv : m_rdv s = if f <? 46 then false else rx;
      v_len : length (m_rxreg s) = 16 }.
    Definition bit (f : nat) : bool :=
      if f <? 32 then true else if (f <? 46) || negb rx then nth (f - 32) T false else true.
    Definition b1 (c : bool) : nat := Nat.b2n c.
    (** ticks to the end *)
    Definition todo (f : nat) (c : bool) : nat := 2 * (63 - f) + (1 - b1 c).
    Notation done := finished.

    Lemma stf_cases f c : f <= 63 ->
      (f < 32 /\ stf f c = Pre) \/ (32 <= f < 46 /\ stf f c = AddrBlock) \/
      (f = 46 /\ stf f c = Ta) \/ (f = 47 /\ stf f c = if negb rx && c then Data else Ta) \/ (48 <= f /\ stf f c = Data).
    Proof.
      intros H. unfold stf. destruct (Nat.ltb_spec f 32); [auto 8|]. destruct (Nat.ltb_spec f 46); [auto 8|].
      destruct (Nat.ltb_spec f 47); [right; right; left; split; [lia|reflexivity]|].
      destruct (Nat.eqb_spec f 47); [auto 8|]. right; right; right; right. split; [lia|reflexivity].
    Qed.
    Lemma stf_not_idle f c : st_eqb (stf f c) Idle = false.
    Proof. unfold stf. repeat match goal with |- context [if ?b then _ else _] => destruct b end; reflexivity. Qed.

    Lemma tx_shift f : 32 <= f <= 63 -> shl1 (skipn (f - 32) T ++ repeat false (f - 32)) = skipn (f + 1 - 32) T ++ repeat false (f + 1 - 32).
    Proof.
      intros H. replace (f + 1 - 32) with (S (f - 32)) by lia. remember (f - 32) as k eqn:Ek. assert (k < length T) by lia.
      destruct (skipn k T) as [|x l] eqn:E. { pose proof (skipn_length k T) as L. rewrite E in L. cbn [length] in L. lia. }
      assert (E2 : skipn (S k) T = l). { clear - E. revert T E. induction k; intros [|y T] E; cbn in *; try discriminate; [congruence|]. apply IHk. exact E. }
      rewrite E2. cbn [app shl1]. rewrite <- app_assoc. f_equal. rewrite <- repeat_cons. reflexivity.
    Qed.

    (** a cycle without a tick *)
    Lemma inv_hold f c s i : Inv f c s -> tk s = false -> Inv f c (fst (step s i)).
    Proof.
      intros [] Ht. constructor; rewrite ?next_clk, ?next_cnt, ?next_rx, ?next_tx, ?next_rdv, ?next_rxreg, ?Ht, ?v_st0, ?stf_not_idle;
        cbn [andb]; auto.
      - rewrite next_st, v_st0, Ht, v_cnt0, v_rx0. cbn [andb]. rewrite ?andb_false_r. cbn [orb]. rewrite ?andb_false_r.
        destruct (stf_cases f c v_f0) as [[? ->]|[[? ->]|[[? ->]|[[? ->]|[? ->]]]]]; try reflexivity. destruct (negb rx && c); reflexivity.
      - rewrite ?andb_false_r. assumption.
    Qed.
    (** the falling edge *)
    Lemma inv_fall f s i : f < 63 -> Inv f true s -> tk s = true -> Inv (f + 1) false (fst (step s i)).
    Proof.
      intros Hf [] Ht. constructor; rewrite ?next_clk, ?next_cnt, ?next_rx, ?next_tx, ?next_rdv, ?next_rxreg, ?Ht, ?v_st0, ?stf_not_idle, ?v_clk0;
        cbn [andb negb]; auto; try lia.
      - rewrite v_cnt0. apply winc_small. change (2 ^ log2ceil CNTR_MAX) with 64. lia.
      - rewrite next_st, v_st0, Ht, v_cnt0, v_rx0, v_clk0. cbn [andb negb orb]. rewrite ?andb_false_r, orb_false_r, andb_true_r.
        destruct (stf_cases f true v_f0) as [[? ->]|[[? ->]|[[? ->]|[[? ->]|[? ->]]]]]; unfold stf.
        + destruct (Nat.eqb_spec f 31); destruct (Nat.ltb_spec (f + 1) 32); try lia; [|reflexivity]. destruct (Nat.ltb_spec (f + 1) 46); [reflexivity|lia].
        + destruct (Nat.ltb_spec (f + 1) 32); [lia|].
          destruct (Nat.eqb_spec f 45); destruct (Nat.ltb_spec (f + 1) 46); try lia; [|reflexivity]. destruct (Nat.ltb_spec (f + 1) 47); [reflexivity|lia].
        + replace f with 46 by lia. cbn. rewrite andb_false_r. reflexivity.
        + replace f with 47 by lia. cbn. rewrite andb_true_r. destruct rx; reflexivity.
        + destruct (Nat.ltb_spec (f + 1) 32); [lia|]. destruct (Nat.ltb_spec (f + 1) 46); [lia|]. destruct (Nat.ltb_spec (f + 1) 47); [lia|].
          destruct (Nat.eqb_spec (f + 1) 47); [lia|reflexivity].
      - rewrite v_tx0. destruct (stf_cases f true v_f0) as [[? ->]|[[? ->]|[[? ->]|[[? ->]|[? ->]]]]]; cbn [st_eqb orb].
        + replace (f - 32) with 0 by lia. replace (f + 1 - 32) with 0 by lia. reflexivity.
        + apply tx_shift. lia.
        + apply tx_shift. lia.
        + destruct rx; cbn [negb andb st_eqb orb]; apply tx_shift; lia.
        + apply tx_shift. lia.
      - rewrite v_cnt0, v_rx0, v_rdv0. destruct (Nat.eqb_spec f 45); destruct (Nat.ltb_spec (f + 1) 46); try lia; try reflexivity.
        + destruct (Nat.ltb_spec f 46); [reflexivity|lia].
        + destruct (Nat.ltb_spec f 46); [lia|reflexivity].
      - rewrite ?andb_false_r. assumption.
    Qed.
    (** the rising edge *)
    Lemma inv_rise f s i : f < 63 -> Inv f false s -> tk s = true -> Inv f true (fst (step s i)).
    Proof.
      intros Hf [] Ht. constructor; rewrite ?next_clk, ?next_cnt, ?next_rx, ?next_tx, ?next_rdv, ?next_rxreg, ?Ht, ?v_st0, ?stf_not_idle, ?v_clk0;
        cbn [andb negb]; auto; try lia.
      - rewrite next_st, v_st0, Ht, v_cnt0, v_rx0, v_clk0. cbn [andb negb orb]. rewrite andb_false_r, andb_true_r. cbn [orb].
        destruct (stf_cases f false v_f0) as [[? ->]|[[? ->]|[[? ->]|[[? ->]|[? ->]]]]]; unfold stf.
        + destruct (Nat.ltb_spec f 32); [reflexivity|lia].
        + destruct (Nat.ltb_spec f 32); [lia|]. destruct (Nat.ltb_spec f 46); [reflexivity|lia].
        + replace f with 46 by lia. reflexivity.
        + replace f with 47 by lia. cbn. destruct rx; reflexivity.
        + destruct (Nat.eqb_spec f 63); [lia|]. destruct (Nat.ltb_spec f 32); [lia|]. destruct (Nat.ltb_spec f 46); [lia|]. destruct (Nat.ltb_spec f 47); [lia|].
          destruct (Nat.eqb_spec f 47); [lia|reflexivity].
      - destruct (_ && _); rewrite ?shift_in_len; assumption.
    Qed.
    (** the last rising edge *)
    Lemma inv_end s i : Inv 63 false s -> tk s = true ->
      let s' := fst (step s i) in m_st s' = Idle /\ m_rdv s' = rx /\ m_clk s' = true.
    Proof.
      intros [] Ht s'. unfold s'. rewrite next_st, next_rdv, next_clk, v_st0, v_clk0, Ht, v_cnt0, v_rdv0. auto.
    Qed.

    Lemma line_bit f s i : Inv f false s -> line (snd (step s i)) = bit f.
    Proof.
      intros []. unfold line. rewrite out_eq. cbn [o_t]. rewrite v_st0, stf_not_idle, v_rx0, v_tx0. cbn [negb andb].
      assert (HB : 32 <= f -> hd false (skipn (f - 32) T ++ repeat false (f - 32)) = nth (f - 32) T false).
      { intros H. rewrite <- (firstn_skipn (f - 32) T) at 2. rewrite app_nth2; rewrite firstn_length; [|lia].
        replace (f - 32 - _) with 0 by lia.
        destruct (skipn (f - 32) T) as [|x l] eqn:E; [|reflexivity]. pose proof (skipn_length (f - 32) T) as L. rewrite E in L. cbn [length] in L. lia. }
      unfold bit. destruct (stf_cases f false v_f0) as [[? ->]|[[? ->]|[[? ->]|[[? ->]|[? ->]]]]]; cbn [st_eqb orb andb negb].
      - destruct (Nat.ltb_spec f 32); [|lia]. rewrite andb_false_r. reflexivity.
      - destruct (Nat.ltb_spec f 32); [lia|]. destruct (Nat.ltb_spec f 46); [|lia]. cbn [orb]. rewrite andb_true_r, negb_involutive. apply HB. lia.
      - destruct (Nat.ltb_spec f 32); [lia|]. destruct (Nat.ltb_spec f 46); [lia|]. cbn [orb]. rewrite HB by lia. destruct rx; cbn [negb]; rewrite ?andb_false_r, ?andb_true_r, ?negb_involutive; reflexivity.
      - destruct (Nat.ltb_spec f 32); [lia|]. destruct (Nat.ltb_spec f 46); [lia|]. cbn [orb]. rewrite HB by lia. destruct rx; cbn [negb andb st_eqb orb]; rewrite ?andb_false_r, ?andb_true_r, ?negb_involutive; reflexivity.
      - destruct (Nat.ltb_spec f 32); [lia|]. destruct (Nat.ltb_spec f 46); [lia|]. cbn [orb]. rewrite HB by lia. destruct rx; cbn [negb]; rewrite ?andb_false_r, ?andb_true_r, ?negb_involutive; reflexivity.
    Qed.
    (** what is seen to the end of the transaction *)
    Definition frame_seen (s : md_state) (k : nat) (t : list (md_in * md_out)) : Prop :=
      map snd (edges t) = map bit (seq k (64 - k)) /\
      (exists i1 t1, t = (i1, snd (step s i1)) :: t1) /\
      (exists t0 i o, t = t0 ++ [(i, o)] /\ o_rd o = negb rx /\ o_vld o = rx /\
         (rx = true -> o_data o = last_bits 16 (m_rxreg s ++ map fst (edges t)))).

    Lemma frame_run is : forall s f c n, Inv f c s -> f < 63 \/ c = false -> at_time n s -> todo f c * D - n mod D < length is ->
      exists t, upto done (trace step s is) = Some t /\ frame_seen s (f + b1 c) t.
    Proof.
      induction is as [|i is IH]; intros s f c n HI Hfc Ha Hl; [cbn [length] in Hl; lia|].
      pose proof (v_f _ _ _ HI) as Hf. pose proof (v_clk _ _ _ HI) as Hc. pose proof (v_st _ _ _ HI) as Hs.
      pose proof (tk_time n s Ha) as Ht. pose proof (mod_next n) as Hm. pose proof (Nat.mod_upper_bound n D ltac:(lia)) as Hu.
      pose proof (at_time_step n s i Ha) as Ha'.
      assert (Hd : done (snd (step s i)) = false). { unfold finished. rewrite out_eq, Hs. cbn [o_rd o_vld]. rewrite stf_not_idle. reflexivity. }
      assert (Hoc : o_c (snd (step s i)) = c). { rewrite out_eq. exact Hc. }
      cbn [length] in Hl.
      (* one more cycle in front *)
      assert (HX : forall t' f' c', Inv f' c' (fst (step s i)) -> upto done (trace step (fst (step s i)) is) = Some t' -> frame_seen (fst (step s i)) (f' + b1 c') t' ->
        ((c = false /\ c' = true /\ f' = f /\ tk s = true) \/ (negb c && c' = false /\ f' + b1 c' = f + b1 c)) ->
        exists t, upto done (trace step s (i :: is)) = Some t /\ frame_seen s (f + b1 c) t).
      { intros t' f' c' HI' E' (S1 & (i1 & t1 & S2) & (t0 & i2 & o2 & S3 & S4 & S5 & S6)) HE.
        exists ((i, snd (step s i)) :: t'). split; [rewrite trace_cons; cbn [upto]; rewrite Hd, E'; reflexivity|].
        assert (Hed : edges ((i, snd (step s i)) :: t') = if negb c && c' then (i_io i, line (snd (step s i))) :: edges t' else edges t').
        { rewrite S2. cbn [edges]. rewrite Hoc. replace (o_c (snd (step (fst (step s i)) i1))) with c'; [reflexivity|].
          rewrite (out_eq (fst (step s i)) i1). cbn [o_c]. symmetry. exact (v_clk _ _ _ HI'). }
        assert (Hlen : length (edges t') = 64 - (f' + b1 c')). { rewrite <- (map_length snd), S1, map_length, seq_length. reflexivity. }
        assert (HR : rx = true -> forall e, e = edges ((i, snd (step s i)) :: t') -> last_bits 16 (m_rxreg (fst (step s i)) ++ map fst (edges t')) = last_bits 16 (m_rxreg s ++ map fst e)).
        { intros Hr e ->. rewrite Hed, next_rxreg, Hs, (v_rx _ _ _ HI), Hc. pose proof (v_len _ _ _ HI) as HL. destruct HE as [(-> & -> & -> & HE)|[HE _]].
          - rewrite HE, Hr. cbn [negb andb]. rewrite !andb_true_r. cbn [map fst b1 Nat.b2n] in *.
            destruct (st_eqb (stf f false) Data) eqn:Es.
            + destruct (m_rxreg s) as [|r0 R]; [discriminate HL|]. cbn [shift_in length] in *.
              rewrite <- (lastn_app 16 [r0]); [f_equal; cbn [app]; rewrite <- app_assoc; reflexivity|]. rewrite !app_length, map_length. cbn [length]. lia.
            + assert (f < 48). { destruct (stf_cases f false Hf) as [[? E]|[[? E]|[[? E]|[[? E]|[? E]]]]]; try lia. rewrite E in Es. discriminate. }
              rewrite lastn_app by (rewrite map_length; lia).
              change (m_rxreg s ++ i_io i :: map fst (edges t')) with (m_rxreg s ++ [i_io i] ++ map fst (edges t')). rewrite app_assoc, lastn_app by (rewrite map_length; lia). reflexivity.
          - rewrite HE.
            assert (E0 : tk s && negb c = false).
            { destruct c; [apply andb_false_r|]. cbn [negb andb] in *. subst c'. pose proof (v_clk _ _ _ HI') as E1. rewrite next_clk, Hc in E1. destruct (tk s); [discriminate|reflexivity]. }
            rewrite E0, andb_false_r. reflexivity. }
        split; [|split].
        - rewrite Hed. destruct HE as [(-> & -> & -> & HE)|[HE1 HE2]].
          + cbn [negb andb map b1 Nat.b2n]. cbn [b1 Nat.b2n] in S1. rewrite S1. cbn [snd]. rewrite (line_bit f s i HI). rewrite Nat.add_0_r.
            replace (64 - f) with (S (64 - (f + 1))) by lia. cbn [seq map]. rewrite Nat.add_1_r. reflexivity.
          + rewrite HE1, S1, HE2. reflexivity.
        - exists i, t'. reflexivity.
        - exists ((i, snd (step s i)) :: t0), i2, o2. rewrite S3 at 1. split; [reflexivity|]. split; [assumption|]. split; [assumption|].
          intros Hr. rewrite S6 by assumption. apply HR; [assumption|reflexivity]. }
      destruct ((n + 1) mod D =? 0) eqn:Et.
      - apply Nat.eqb_eq in Et. pose proof (mod_tick n Et) as Hmt.
        assert (Hn' : S n mod D = 0) by (replace (S n) with (n + 1) by lia; exact Et).
        destruct c.
        + (* falling *)
          assert (Hf' : f < 63) by (destruct Hfc; [assumption|discriminate]).
          pose proof (inv_fall f s i Hf' HI Ht) as HI'.
          destruct (IH _ _ _ _ HI' (or_intror eq_refl) Ha') as (t' & E' & F').
          { rewrite Hn'. unfold todo in *. cbn [b1 Nat.b2n] in *. replace (2 * (63 - f) + (1 - 1)) with (S (2 * (63 - (f + 1)) + (1 - 0))) in Hl by lia. rewrite Nat.mul_succ_l in Hl. lia. }
          apply (HX t' _ _ HI' E' F'). right. cbn [b1 Nat.b2n]. split; [reflexivity|lia].
        + destruct (Nat.eq_dec f 63) as [->|Hne].
          * (* the end *)
            destruct (inv_end s i HI Ht) as (Z1 & Z2 & Z3).
            destruct is as [|i1 is]. { exfalso. unfold todo in Hl. cbn [b1 Nat.b2n length] in Hl. replace (2 * (63 - 63) + (1 - 0)) with 1 in Hl by lia. lia. }
            exists [(i, snd (step s i)); (i1, snd (step (fst (step s i)) i1))].
            assert (Hd1 : done (snd (step (fst (step s i)) i1)) = true). { unfold finished. rewrite (out_eq (fst (step s i)) i1), Z1, Z2. cbn. destruct rx; reflexivity. }
            assert (Hed : edges [(i, snd (step s i)); (i1, snd (step (fst (step s i)) i1))] = [(i_io i, line (snd (step s i)))]).
            { cbn [edges]. rewrite Hoc, (out_eq (fst (step s i)) i1), Z3. reflexivity. }
            split. { rewrite !trace_cons. cbn [upto]. rewrite Hd, Hd1. reflexivity. }
            split; [|split].
            -- rewrite Hed. cbn [map snd]. rewrite (line_bit 63 s i HI). reflexivity.
            -- eexists _, _. reflexivity.
            -- exists [(i, snd (step s i))], i1, (snd (step (fst (step s i)) i1)). split; [reflexivity|].
               rewrite Hed, (out_eq (fst (step s i)) i1), Z1, Z2. cbn [o_rd o_vld o_data st_eqb andb]. split; [reflexivity|]. split; [reflexivity|].
               intros Hr. rewrite next_rxreg, Hs, (v_rx _ _ _ HI), Hc, Ht, Hr. pose proof (v_len _ _ _ HI) as HL.
               change (stf 63 false) with Data. cbn [st_eqb andb negb map fst].
               destruct (m_rxreg s) as [|r0 R]; [discriminate HL|]. cbn [shift_in app length] in *. unfold last_bits. rewrite <- (Nat.sub_0_r (length _ - 16)).
               cbn [length]. rewrite app_length. cbn [length]. replace (S (length R + 1) - 16 - 0) with 1 by lia. reflexivity.
          * (* rising *)
            assert (Hf' : f < 63) by lia.
            pose proof (inv_rise f s i Hf' HI Ht) as HI'.
            destruct (IH _ _ _ _ HI' (or_introl Hf') Ha') as (t' & E' & F').
            { rewrite Hn'. unfold todo in *. cbn [b1 Nat.b2n] in *. replace (2 * (63 - f) + (1 - 0)) with (S (2 * (63 - f) + (1 - 1))) in Hl by lia. rewrite Nat.mul_succ_l in Hl. lia. }
            apply (HX t' _ _ HI' E' F'). left. auto.
      - (* no tick *)
        pose proof (inv_hold f c s i HI Ht) as HI'.
        destruct (IH _ _ _ _ HI' Hfc Ha') as (t' & E' & F').
        { replace (S n) with (n + 1) by lia. rewrite Hm.
          assert (1 <= todo f c). { unfold todo. destruct Hfc as [?| ->]; [|cbn [b1 Nat.b2n]]; lia. }
          assert (D <= todo f c * D) by nia. lia. }
        apply (HX t' _ _ HI' E' F'). right. split; [destruct c; reflexivity|reflexivity].
    Qed.
  End Frame.

  (** facts about the idle state *)
  Definition IdleInv (s : md_state) : Prop := (m_st s = Idle -> m_cnt s = 0 \/ m_cnt s = 63) /\ length (m_rxreg s) = 16.
  Lemma idle_inv h tx rx : length rx = 16 -> IdleInv (final step (md_init D tx rx) h).
  Proof.
    intros H. induction h as [|i h [I1 I2]] using rev_ind; [split; [left; reflexivity|exact H]|]. rewrite final_snoc.
    set (s := final _ _ h) in *. clearbody s. split.
    - rewrite next_st, next_cnt. destruct (m_st s) eqn:E; cbn [st_eqb].
      + auto.
      + destruct (_ && _); discriminate.
      + destruct (_ && _); discriminate.
      + destruct (_ && _); discriminate.
      + destruct (Nat.eqb_spec (m_cnt s) 63) as [->|]; rewrite ?andb_false_r; [|discriminate]. rewrite andb_true_r.
        destruct (tk s); cbn [andb]; [|discriminate]. destruct (m_clk s); cbn [negb]; [discriminate|]. auto.
    - rewrite next_rxreg. match goal with |- context [if ?b then _ else _] => destruct b end; rewrite ?shift_in_len; assumption.
  Qed.

  Lemma accept_inv s i : IdleInv s -> well_formed i -> i_vld i = true -> o_rd (snd (step s i)) = true ->
    Inv (forallb (fun p => Bool.eqb (fst p) (snd p)) (combine (i_op i) OP_READ)) (write_frame i) 0 (m_clk (fst (step s i))) (fst (step s i)).
  Proof.
    intros [I1 I2] (W1 & W2 & W3 & W4) Hv Hr. rewrite out_eq in Hr. cbn [o_rd] in Hr. apply andb_prop in Hr as [Hi Hd].
    assert (Hs : m_st s = Idle) by (destruct (m_st s); try discriminate; reflexivity). apply negb_true_iff in Hd.
    constructor; rewrite ?next_cnt, ?next_rx, ?next_st, ?next_tx, ?next_rxreg, ?next_rdv, ?Hs, ?Hv, ?Hd; cbn [st_eqb andb negb]; auto; try lia.
    - cbn [Nat.sub skipn repeat]. rewrite app_nil_r. reflexivity.
    - cbn [Nat.ltb Nat.leb]. destruct (i_rd i); [reflexivity|]. destruct (I1 Hs) as [-> | ->]; cbn; rewrite andb_false_r; reflexivity.
  Qed.

  Lemma transaction tx rxr h i0 is : length rxr = 16 -> well_formed i0 -> i_vld i0 = true ->
    let s := final step (md_init D tx rxr) h in
    o_rd (snd (step s i0)) = true -> 128 * D <= length is ->
    let rx := forallb (fun p => Bool.eqb (fst p) (snd p)) (combine (i_op i0) OP_READ) in
    exists t c, upto finished (trace step (fst (step s i0)) is) = Some t /\ frame_seen rx (write_frame i0) (fst (step s i0)) (b1 c) t.
  Proof.
    intros HL HW Hv s Hr Hl rx. pose proof (idle_inv h tx rxr HL) as HI. fold s in HI.
    pose proof (accept_inv s i0 HI HW Hv Hr) as HV.
    assert (HT : length (write_frame i0) = 32). { destruct HW as (W1 & W2 & W3 & W4). unfold write_frame. rewrite !app_length, W1, W2, W3, W4. reflexivity. }
    destruct (frame_run rx (write_frame i0) HT is _ 0 _ (S (length h)) HV) as (t & E & F).
    - left. lia.
    - apply at_time_step. apply at_time_final.
    - unfold todo. destruct (m_clk _); cbn [b1 Nat.b2n]; match goal with |- ?a * D - _ < _ => assert (a * D < 128 * D) by nia end; lia.
    - exists t, (m_clk (fst (step s i0))). split; [exact E|exact F].
  Qed.

  Lemma bits_write T : length T = 32 -> forall c, map (bit false T) (seq (b1 c) (64 - b1 c)) = repeat true (32 - b1 c) ++ T.
  Proof.
    intros H c. do 32 (destruct T as [|? T]; [discriminate H|]). destruct T; [|discriminate H]. destruct c; reflexivity.
  Qed.
  Lemma bits_read T : length T = 32 -> forall c, map (bit true T) (seq (b1 c) (64 - b1 c)) = repeat true (32 - b1 c) ++ firstn 14 T ++ repeat true 18.
  Proof.
    intros H c. do 32 (destruct T as [|? T]; [discriminate H|]). destruct T; [|discriminate H]. destruct c; reflexivity.
  Qed.
  Lemma is_read_spec op : length op = 2 -> forallb (fun p => Bool.eqb (fst p) (snd p)) (combine op OP_READ) = true <-> op = OP_READ.
  Proof.
    intros H. destruct op as [|a [|b [|? ?]]]; try discriminate H. cbn. destruct a, b; cbn; split; intros E; try discriminate E; reflexivity.
  Qed.
  Lemma frame_len i : well_formed i -> length (write_frame i) = 32.
  Proof. intros (W1 & W2 & W3 & W4). unfold write_frame. rewrite !app_length, W1, W2, W3, W4. reflexivity. Qed.

  Theorem mdio_write tx rxr h i0 is : length rxr = 16 -> well_formed i0 -> i_vld i0 = true -> i_op i0 <> OP_READ ->
    let s := final step (md_init D tx rxr) h in
    o_rd (snd (step s i0)) = true -> 128 * D <= length is ->
    exists t k, upto finished (trace step (fst (step s i0)) is) = Some t /\ preamble k /\
      map snd (edges t) = repeat true k ++ write_frame i0 /\ (exists t0 i o, t = t0 ++ [(i, o)] /\ o_rd o = true).
  Proof.
    intros HL HW Hv Hop s Hr Hl. destruct (transaction tx rxr h i0 is HL HW Hv Hr Hl) as (t & c & E & S1 & _ & t0 & i & o & S3 & S4 & _).
    assert (Hrx : forallb (fun p => Bool.eqb (fst p) (snd p)) (combine (i_op i0) OP_READ) = false).
    { apply not_true_is_false. intros X. apply Hop. apply is_read_spec; [apply HW|exact X]. }
    rewrite Hrx in S1, S4. exists t, (32 - b1 c). split; [exact E|]. split; [destruct c; [left|right]; reflexivity|]. split.
    - rewrite S1. apply bits_write. apply frame_len. exact HW.
    - exists t0, i, o. auto.
  Qed.
  Theorem mdio_read tx rxr h i0 is : length rxr = 16 -> well_formed i0 -> i_vld i0 = true -> i_op i0 = OP_READ ->
    let s := final step (md_init D tx rxr) h in
    o_rd (snd (step s i0)) = true -> 128 * D <= length is ->
    exists t k, upto finished (trace step (fst (step s i0)) is) = Some t /\ preamble k /\
      map snd (edges t) = repeat true k ++ read_frame i0 /\
      (exists t0 i o, t = t0 ++ [(i, o)] /\ o_vld o = true /\ o_data o = last_bits 16 (map fst (edges t))).
  Proof.
    intros HL HW Hv Hop s Hr Hl. destruct (transaction tx rxr h i0 is HL HW Hv Hr Hl) as (t & c & E & S1 & _ & t0 & i & o & S3 & S4 & S5 & S6).
    assert (Hrx : forallb (fun p => Bool.eqb (fst p) (snd p)) (combine (i_op i0) OP_READ) = true).
    { apply is_read_spec; [apply HW|exact Hop]. }
    rewrite Hrx in S1, S5, S6. exists t, (32 - b1 c). split; [exact E|]. split; [destruct c; [left|right]; reflexivity|]. split.
    - rewrite S1, bits_read by (apply frame_len; exact HW). f_equal. unfold write_frame, read_frame.
      destruct HW as (W1 & W2 & W3 & W4).
      assert (HA : length ([false; true] ++ i_op i0 ++ i_phy i0 ++ i_reg i0) = 14) by (rewrite !app_length, W1, W2, W3; reflexivity).
      assert (HB : forall A B C : list bool, length A = 14 -> firstn 14 (A ++ B) ++ C = A ++ C).
      { intros A B C HA'. rewrite firstn_app, HA'. rewrite firstn_all2 by lia. rewrite Nat.sub_diag. cbn [firstn]. rewrite app_nil_r. reflexivity. }
      specialize (HB _ ([true; false] ++ i_wdata i0) (repeat true 18) HA). rewrite <- !app_assoc in HB. exact HB.
    - exists t0, i, o. split; [exact S3|]. split; [exact S5|]. rewrite S6 by reflexivity. apply lastn_app.
      rewrite map_length, <- (map_length snd), S1, map_length, seq_length. destruct c; cbn; lia.
  Qed.

  (** the counter of the tick replaced by the time *)
  Definition fstep (p : nat * md_state) (i : md_in) : (nat * md_state) * md_out :=
    let '(s', o) := md_core ((fst p + 1) mod D =? 0) (fun _ => 0) (snd p) i in ((S (fst p), s'), o).
  Definition same (s s' : md_state) : Prop :=
    m_clk s = m_clk s' /\ m_rdv s = m_rdv s' /\ m_cnt s = m_cnt s' /\ m_rx s = m_rx s' /\ m_st s = m_st s' /\ m_tx s = m_tx s' /\ m_rxreg s = m_rxreg s'.
  Lemma fast is : forall n s s', at_time n s -> same s s' -> outs step s is = outs fstep (n, s') is.
  Proof.
    induction is as [|i is IH]; intros n s s' Ha Hs; [reflexivity|].
    pose proof (tk_time n s Ha) as Ht. pose proof (at_time_step n s i Ha) as Ha'. unfold tk in Ht.
    destruct s as [a b c d e f g k], s' as [a' b' c' d' e' f' g' k']. destruct Hs as (H1 & H2 & H3 & H4 & H5 & H6 & H7).
    cbn [m_clk m_rdv m_cnt m_rx m_st m_tx m_rxreg m_tim] in *. subst b' c' d' e' f' g' k'.
    rewrite !outs_cons. apply (f_equal2 (@cons md_out)).
    - unfold fstep, md_step. cbn [fst snd m_tim]. rewrite <- Ht. destruct (timers_step [D] a (true, false)) as [x y]. reflexivity.
    - unfold fstep. cbn [fst snd]. rewrite <- Ht. unfold md_step in Ha' |- *. cbn [m_tim] in *. destruct (timers_step [D] a (true, false)) as [x y].
      cbn [snd] in *. destruct (md_core (nth 0 y false) (fun _ => 0) (mk_md a' b c d e f g k) i) as [s2 o2] eqn:E2. cbn [fst snd]. apply IH; [exact Ha'|].
      unfold md_core in *. cbn [fst m_clk m_rdv m_cnt m_rx m_st m_tx m_rxreg] in *. inversion E2. repeat split.
  Qed.
  Lemma fast_init tx rxr is : trace step (md_init D tx rxr) is = trace fstep (0, md_init D tx rxr) is.
  Proof. unfold trace. f_equal. apply fast; [reflexivity|]. repeat split. Qed.

  Theorem mdio_hold is : forall s, hold_time finished (trace step s is).
  Proof.
    induction is as [|i is IH]; intros s; [exact I|]. specialize (IH (fst (step s i))). rewrite trace_cons.
    destruct is as [|i2 is]; [exact I|]. rewrite trace_cons in *. cbn [hold_time] in *. split; [|exact IH]. clear IH.
    rewrite (out_eq (fst (step s i)) i2), (out_eq s i). unfold finished, line. cbn [o_c o_rd o_vld o_t].
    rewrite next_clk, next_st, next_tx, next_rx. intros Hc Hc' Hf. rewrite Hc in *. destruct (tk s); [|discriminate]. cbn [andb negb] in *.
    destruct (m_st s) eqn:E; cbn [st_eqb andb negb orb] in *.
    - destruct (i_vld i && negb (m_rdv s)) eqn:E2; cbn [st_eqb andb negb orb] in *; [rewrite andb_false_r; reflexivity|]. exfalso; revert Hf; match goal with |- context [m_rdv (fst ?x)] => destruct (m_rdv (fst x)) end; discriminate.
    - reflexivity.
    - reflexivity.
    - clear Hf; match goal with |- context [if ?b then _ else _] => destruct b end; reflexivity.
    - destruct (m_cnt s =? 63) eqn:E2; [|reflexivity]. cbn [st_eqb andb] in Hf. exfalso; revert Hf; match goal with |- context [m_rdv (fst ?x)] => destruct (m_rdv (fst x)) end; discriminate.
  Qed.
  Theorem mdio_rdata_held tx rxr h is : length rxr = 16 -> rdata_held (trace step (final step (md_init D tx rxr) h) is).
  Proof.
    intros HL. revert h. induction is as [|i is IH]; intros h; [exact I|]. specialize (IH (h ++ [i])). rewrite final_snoc in IH.
    pose proof (idle_inv h tx rxr HL) as [I1 _]. set (s := final _ _ h) in *. rewrite trace_cons.
    destruct is as [|i2 is]; [exact I|]. rewrite trace_cons in *. cbn [rdata_held] in *. split; [|exact IH]. clear IH.
    rewrite (out_eq (fst (step s i)) i2), (out_eq s i). cbn [o_vld o_data]. rewrite next_st, next_rdv, next_rxreg. intros Hv Hr.
    apply andb_prop in Hv as [Hs Hd]. assert (E : m_st s = Idle) by (destruct (m_st s); try discriminate; reflexivity).
    rewrite E, Hd, Hr. cbn [negb]. rewrite andb_false_r. cbn [st_eqb andb]. split; [|reflexivity].
    destruct (I1 E) as [-> | ->]; cbn; rewrite andb_false_r; reflexivity.
  Qed.
  Theorem mdio_idle_released is : forall s, Forall (fun c => finished (snd c) = true -> line (snd c) = true) (trace step s is).
  Proof.
    induction is as [|i is IH]; intros s; [constructor|]. rewrite trace_cons. constructor; [|apply IH]. cbn [snd].
    rewrite out_eq. unfold finished, line. cbn [o_rd o_vld o_t]. intros H. destruct (st_eqb (m_st s) Idle); [reflexivity|discriminate].
  Qed.
End P.

(** deciding [hold_time] *)
Fixpoint holdb (p : md_out -> bool) (t : list (md_in * md_out)) : bool :=
  match t with
  | (_, o) :: (((_, o') :: _) as t') => (o_c o || negb (o_c o') || p o' || Bool.eqb (line o') (line o)) && holdb p t'
  | _ => true
  end.
Lemma holdb_ok p t : hold_time p t -> holdb p t = true.
Proof.
  induction t as [|[i o] t IH]; [reflexivity|]. destruct t as [|[i' o'] t]; [reflexivity|]. intros [H1 H2].
  change (holdb p ((i, o) :: (i', o') :: t)) with ((o_c o || negb (o_c o') || p o' || Bool.eqb (line o') (line o)) && holdb p ((i', o') :: t)).
  rewrite IH by exact H2. rewrite andb_true_r.
  destruct (o_c o); [reflexivity|]. destruct (o_c o'); [|reflexivity]. destruct (p o'); [reflexivity|].
  rewrite H1 by reflexivity. cbn. apply eqb_reflx.
Qed.
