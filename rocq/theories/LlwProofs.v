From Verif Require Import Base BaseFacts FifoModel HsFifoProofs LlwModel LlwSpec ArrwSpec.

Section P.
  Context {A : Type}.
  Variables CAP ITEMS AW DW PW TIMEOUT : nat.
  Hypothesis HC : 2 <= CAP.
  Hypothesis HT : 1 <= TIMEOUT.
  Notation step := (w_step (A := A) CAP ITEMS AW DW PW TIMEOUT).
  Notation M := (2 ^ PW).
  Notation burst := (wburst CAP).
  Definition wpos (k : nat) : nat := (k + M - 1) mod M.

  Lemma burst1 : 1 <= burst. Proof. unfold wburst. change 1 with (2 / 2). apply Nat.div_le_mono; lia. Qed.
  Lemma burst_cap : burst <= CAP - 1. Proof. unfold wburst. pose proof (Nat.div_lt CAP 2 ltac:(lia) ltac:(lia)). lia. Qed.
  Lemma burst_w : burst < 2 ^ wlen_w CAP. Proof. unfold wlen_w. pose proof (log2ceil_ge (burst + 1)). lia. Qed.
  Lemma by_ptrs R K : K < R -> R < K + M -> wrap PW (R mod M + 2 * M - wpos K - 2) = R - K - 1.
  Proof.
    intros H1 H2. unfold wpos, wrap. pose proof (pow2_pos PW) as HM. set (m := M) in *.
    pose proof (Nat.div_mod R m ltac:(lia)) as E1. pose proof (Nat.div_mod (K + m - 1) m ltac:(lia)) as E2.
    pose proof (Nat.mod_upper_bound R m ltac:(lia)) as B1. pose proof (Nat.mod_upper_bound (K + m - 1) m ltac:(lia)) as B2.
    set (r := R / m) in *. set (k := (K + m - 1) / m) in *. set (a := R mod m) in *. set (b := (K + m - 1) mod m) in *.
    assert (a + 2 * m - b - 2 + m * r = R - K - 1 + m * (k + 1)) as E.
    { rewrite Nat.mul_add_distr_l. set (x := m * r) in *. set (y := m * k) in *. lia. }
    apply (f_equal (fun x => x mod m)) in E. rewrite !(Nat.mul_comm m), !Nat.mod_add in E by lia. rewrite (Nat.mod_small (R - K - 1)) in E by lia. exact E.
  Qed.
  Lemma wpos_inc K : winc PW (wpos K) = K mod M.
  Proof.
    unfold winc, wpos, wrap. pose proof (pow2_pos PW) as HM. set (m := M) in *. replace ((K + m - 1) mod m + 1) with (1 + (K + m - 1) mod m) by lia. rewrite Nat.add_mod_idemp_r by lia. replace (1 + (K + m - 1)) with (K + 1 * m) by lia. apply Nat.mod_add. lia.
  Qed.
  Lemma wpos_add K n : n < M -> wrap PW (wpos K + wrap PW (winc PW (wrap PW n))) = wpos (K + n + 1).
  Proof.
    intros Hn. unfold winc, wpos, wrap. pose proof (pow2_pos PW) as HM. rewrite (Nat.mod_small n) by lia. rewrite Nat.mod_mod by lia. rewrite <- Nat.add_mod by lia. f_equal. lia.
  Qed.
  Lemma reqlen_le p r : w_reqlen CAP PW p r <= p /\ w_reqlen CAP PW p r <= burst - 1.
  Proof.
    unfold w_reqlen. pose proof burst_w as HB. cbn zeta. set (c := if wrap PW r <? p then wrap PW r else p).
    assert (c <= p) as Hc by (unfold c; destruct (Nat.ltb_spec (wrap PW r) p); lia).
    destruct (Nat.ltb_spec (burst - 1) c) as [L|L]; [lia|]. rewrite wrap_small by lia. lia.
  Qed.

  (** [R] announced space, [Q] words asked for, [W] words sent, [K] words acknowledged, [n] open requests, [q] buffered items *)
  Definition Inv (s : w_st A) (R Q W K n : nat) (q : list A) : Prop :=
    HRep CAP (w_buf s) q /\ w_rp s = R mod M /\ w_wp s = wpos K /\ Q <= R /\ R < K + M /\ w_len s <= burst - 1 /\
    match w_fsm s with
    | Idle => Q = K /\ W = K /\ n = 0 /\ (w_tmo s < TIMEOUT -> K < R)
    | ReqPending => Q = K /\ W = K /\ n = 0 /\ K < R
    | Prepare => Q = K + w_len s + 1 /\ W = K /\ n = 1
    | Send => Q = K + w_len s + 1 /\ Q = W + w_cnt s + 1 /\ n = 1 /\ w_cnt s <= w_len s
    | WaitForAck => Q = K + w_len s + 1 /\ W <= Q /\ n = 1
    end.
  Lemma fwd_mod r v : forward PW r v mod M = wrap PW v.
  Proof.
    unfold forward, wrap. pose proof (pow2_pos PW) as HM. rewrite Nat.add_mod_idemp_r by lia. pose proof (Nat.div_mod r M ltac:(lia)) as E. pose proof (Nat.mod_upper_bound r M ltac:(lia)) as Hr.
    replace (r + (v mod M + M - r mod M)) with (v mod M + (1 + r / M) * M) by lia. rewrite Nat.mod_add by lia. apply Nat.mod_mod. lia.
  Qed.
  Lemma room_ge r (i : w_in A) : r <= next_room PW r i. Proof. unfold next_room, forward. destruct (x_rd i); lia. Qed.
  Lemma room_mod r (i : w_in A) : (match x_rd i with Some v => wrap PW v | None => r mod M end) = next_room PW r i mod M.
  Proof. unfold next_room. destruct (x_rd i); [|reflexivity]. symmetry. apply fwd_mod. Qed.

  Lemma inv_init m0 d0 x y z : Inv (w_init CAP ITEMS PW TIMEOUT m0 d0 x y z) 0 0 0 0 0 [].
  Proof.
    pose proof (pow2_pos PW). split; [apply hrep_init; [lia|left; cbn; lia]|]. cbn [w_rp w_wp w_len w_fsm w_init w_tmo]. unfold wpos. rewrite Nat.mod_0_l, Nat.mod_small by lia. repeat split; lia.
  Qed.

  Lemma inv_step s R Q W K n q i : Inv s R Q W K n q -> x_wr i = None -> (ack_now i = true -> W = Q /\ 0 < n) -> next_room PW R i < K + M ->
    let o := snd (step s i) in let c := (i, o) in
    Inv (fst (step s i)) (next_room PW R i) (Q + w_asked [c]) (W + length (w_words [c])) (if ack_now i then Q else K) (n + length (w_reqs [c]) - if ack_now i && f_ar o then 1 else 0)
        ((if f_wv o && e_wr i then tl q else q) ++ (if e_v i && f_r o then [e_d i] else [])) /\
    (f_wv o = true -> exists q', q = f_wd o :: q').
  Proof.
    intros (HR & Hrp & Hwp & HQR & HRK & Hlen & HF) Hxw Hack Hroom.
    pose proof (hrep_step CAP HC _ _ (mk_hin (e_v i) (e_d i) (e_wr i && is_send (w_fsm s))) HR) as HS. cbn zeta in HS. destruct HS as (HS1 & HS2 & _).
    pose proof (room_ge R i) as Hge. pose proof (room_mod R i) as Hrm. pose proof burst_w as Hbw. pose proof burst1 as Hb1.
    unfold w_step. destruct (hsf_step CAP (w_buf s) (mk_hin (e_v i) (e_d i) (e_wr i && is_send (w_fsm s)))) as [buf' bo].
    cbn [fst snd i_vld i_data i_rd] in *. cbn zeta. rewrite Hxw. unfold w_asked, w_words, w_reqs, ack_now in *. cbn [flat_map fst snd f_r f_qv f_qa f_ql f_wv f_wd f_wl f_ar]. rewrite !app_nil_r.
    set (ack := e_av i && e_aid i) in *. unfold Inv. cbn [w_buf w_rp w_wp w_len w_fsm w_cnt w_tmo].
    destruct (w_fsm s) eqn:Ef; cbn [is_idle is_req is_prep is_send is_wack andb negb] in *; rewrite ?andb_false_r, ?andb_true_r in *; cbn [andb length map list_sum fold_right] in *; rewrite ?Nat.add_0_r.
    - destruct HF as (-> & -> & -> & Ht). assert (ack = false) as Ea by (destruct ack; [destruct (Hack eq_refl); lia|reflexivity]). rewrite Ea in *. cbn [andb].
      split; [|intros; discriminate]. split; [exact HS1|]. split; [rewrite Hrp; exact Hrm|]. split; [exact Hwp|]. split; [lia|]. split; [exact Hroom|]. split; [exact Hlen|].
      rewrite Hwp, wpos_inc, Hrp. destruct (Nat.eqb_spec (w_tmo s) 0) as [T0|T0].
      + cbn [orb]. repeat split; try lia.
      + cbn [orb negb andb]. destruct (Nat.eqb_spec (K mod M) (R mod M)) as [E|E]; cbn [negb]; rewrite ?andb_false_r, ?andb_true_r.
        * repeat split; try lia.
        * assert (K < R) as HKR by (destruct (Nat.eq_dec K R); [subst; congruence|lia]). destruct (burst - 1 <? h_size bo); repeat split; lia.
    - destruct HF as (-> & -> & -> & Ht). assert (ack = false) as Ea by (destruct ack; [destruct (Hack eq_refl); lia|reflexivity]). rewrite Ea in *. cbn [andb].
      rewrite Hwp, Hrp, by_ptrs by lia. set (l := w_reqlen CAP PW (R - K - 1) (w_rem s)). destruct (reqlen_le (R - K - 1) (w_rem s)) as [Hl1 Hl2]. fold l in Hl1, Hl2.
      split; [|intros; discriminate]. split; [exact HS1|]. split; [exact Hrm|]. split; [reflexivity|].
      destruct (e_qrd i); cbn [map list_sum fold_right length snd]; repeat split; lia.
    - destruct HF as (-> & -> & ->). assert (ack = false) as Ea by (destruct ack; [destruct (Hack eq_refl); lia|reflexivity]). rewrite Ea in *. cbn [andb].
      split; [|intros; discriminate]. split; [exact HS1|]. split; [rewrite Hrp; exact Hrm|]. split; [exact Hwp|]. split; [lia|]. split; [exact Hroom|]. split; [exact Hlen|]. rewrite wrap_small by lia. repeat split; lia.
    - destruct HF as (HQ & HW & -> & Hcl). assert (ack = false) as Ea by (destruct ack; [destruct (Hack eq_refl); lia|reflexivity]). rewrite Ea in *. cbn [andb negb orb].
      split; [|exact HS2]. split; [exact HS1|]. split; [rewrite Hrp; exact Hrm|]. split; [exact Hwp|]. split; [lia|]. split; [exact Hroom|]. split; [exact Hlen|].
      destruct (Nat.eqb_spec (w_cnt s) 0) as [C0|C0].
      + split; [lia|]. split; [destruct (h_vld bo && e_wr i); cbn; lia|reflexivity].
      + split; [lia|]. destruct (h_vld bo && e_wr i); cbn [length]; rewrite ?wdec_pos by lia; repeat split; lia.
    - destruct HF as (HQ & HW & ->). split; [|intros; discriminate]. split; [exact HS1|]. split; [rewrite Hrp; exact Hrm|].
      destruct ack; cbn [andb].
      + destruct (Hack eq_refl) as [-> _]. split; [rewrite Hwp, wpos_add by lia; f_equal; lia|]. repeat split; try lia.
      + split; [exact Hwp|]. repeat split; lia.
  Qed.

  Lemma w_asked_cons c t : w_asked (A := A) (c :: t) = w_asked [c] + w_asked t.
  Proof. unfold w_asked, w_reqs. cbn [flat_map]. rewrite app_nil_r, map_app, list_sum_app. reflexivity. Qed.
  Lemma w_words_cons c t : w_words (A := A) (c :: t) = w_words [c] ++ w_words t.
  Proof. unfold w_words. cbn [flat_map]. rewrite app_nil_r. reflexivity. Qed.
  Lemma w_items_cons c t : w_items (A := A) (c :: t) = w_items [c] ++ w_items t.
  Proof. unfold w_items. cbn [flat_map]. rewrite app_nil_r. reflexivity. Qed.
  Lemma w_reqs_cons c t : w_reqs (A := A) (c :: t) = w_reqs [c] ++ w_reqs t.
  Proof. unfold w_reqs. cbn [flat_map]. rewrite app_nil_r. reflexivity. Qed.

  Lemma space_law is : forall s R Q W K n q, Inv s R Q W K n q -> no_wr is ->
    let t := trace step s is in acks_ok Q W n t -> w_fits PW R K Q t -> W + length (w_words t) <= Q + w_asked t /\ Q + w_asked t <= room PW R t.
  Proof.
    induction is as [|i is IH]; intros s R Q W K n q H Hn t Ha Hf.
    - subst t. cbn. destruct H as (_ & _ & _ & H & _ & _ & H2). unfold w_asked, w_reqs. cbn. destruct (w_fsm s); lia.
    - subst t. rewrite trace_cons in *. inversion Hn as [|? ? Hn1 Hn2]; subst. cbn [acks_ok w_fits fst snd] in Ha, Hf. destruct Ha as [Ha1 Ha2], Hf as [Hf1 Hf2].
      destruct (inv_step s R Q W K n q i H Hn1 Ha1 Hf1) as [HI _]. specialize (IH _ _ _ _ _ _ _ HI Hn2 Ha2 Hf2). cbn zeta in IH. rewrite w_asked_cons, w_words_cons, app_length. cbn [room fst]. lia.
  Qed.
  (** order needs no assumption about the datapump *)
  Lemma order_law is : forall s q, HRep CAP (w_buf s) q -> let t := trace step s is in exists q', q ++ w_items t = map fst (w_words t) ++ q'.
  Proof.
    induction is as [|i is IH]; intros s q HR t.
    - subst t. exists q. cbn. apply app_nil_r.
    - subst t. rewrite trace_cons, w_items_cons, w_words_cons.
      pose proof (hrep_step CAP HC _ _ (mk_hin (e_v i) (e_d i) (e_wr i && is_send (w_fsm s))) HR) as HS. cbn zeta in HS. destruct HS as (HS1 & HS2 & _).
      assert (E : w_buf (fst (step s i)) = fst (hsf_step CAP (w_buf s) (mk_hin (e_v i) (e_d i) (e_wr i && is_send (w_fsm s)))) /\
        let bo := snd (hsf_step CAP (w_buf s) (mk_hin (e_v i) (e_d i) (e_wr i && is_send (w_fsm s)))) in let o := snd (step s i) in f_r o = h_rd bo /\ f_wv o = h_vld bo && is_send (w_fsm s) /\ f_wd o = h_data bo).
      { unfold w_step. destruct (hsf_step CAP (w_buf s) (mk_hin (e_v i) (e_d i) (e_wr i && is_send (w_fsm s)))). cbn. auto. }
      cbn zeta in E. destruct E as (E1 & E2 & E3 & E4). cbn [i_vld i_data i_rd] in HS1, HS2. rewrite <- E1 in HS1. destruct (IH _ _ HS1) as [q' Hq]. cbn zeta in Hq. exists q'.
      unfold w_items, w_words. cbn [flat_map fst snd]. rewrite !app_nil_r. fold (w_items (trace step (fst (step s i)) is)). fold (w_words (trace step (fst (step s i)) is)).
      rewrite E2, E3, E4. set (bo := snd (hsf_step CAP (w_buf s) (mk_hin (e_v i) (e_d i) (e_wr i && is_send (w_fsm s))))) in *. rewrite <- app_assoc in Hq.
      replace (h_vld bo && is_send (w_fsm s) && e_wr i) with (h_vld bo && (e_wr i && is_send (w_fsm s))) by (destruct (h_vld bo), (is_send (w_fsm s)), (e_wr i); reflexivity).
      destruct (h_vld bo) eqn:Ev; cbn [andb] in *.
      + destruct (HS2 eq_refl) as [q1 ->]. destruct (e_wr i && is_send (w_fsm s)); cbn [app map fst tl] in *; rewrite <- Hq; reflexivity.
      + cbn [app map]. exact Hq.
  Qed.
  Lemma t94_order m0 d0 x y z is : let t := trace step (w_init CAP ITEMS PW TIMEOUT m0 d0 x y z) is in map fst (w_words t) = firstn (length (w_words t)) (w_items t).
  Proof.
    cbn zeta. destruct (order_law is (w_init CAP ITEMS PW TIMEOUT m0 d0 x y z) []) as [q' E]; [apply hrep_init; [lia|left; cbn; lia]|]. cbn zeta in E. cbn [app] in E. rewrite E.
    rewrite firstn_app, map_length, Nat.sub_diag. cbn [firstn]. rewrite app_nil_r, <- (map_length fst), firstn_all. reflexivity.
  Qed.
  Lemma t94_space m0 d0 x y z is : no_wr is ->
    let t := trace step (w_init CAP ITEMS PW TIMEOUT m0 d0 x y z) is in acks_ok 0 0 0 t -> w_fits PW 0 0 0 t -> length (w_words t) <= w_asked t /\ w_asked t <= room PW 0 t.
  Proof. intros Hn t Ha Hf. exact (space_law is _ _ _ _ _ _ _ (inv_init m0 d0 x y z) Hn Ha Hf). Qed.

  (** the first block *)
  Section Block.
    Variable b : nat.
    Hypothesis HI : CAP <= ITEMS.
    Hypothesis HTB : burst < TIMEOUT.
    Let al := w_al DW.
    Let B := 2 ^ al.
    Hypothesis Hal : al <= AW.
    Hypothesis Hb : b < 2 ^ (AW - al).
    Definition cellb (k : nat) : nat := (b * B + k * B) mod 2 ^ AW.
    Lemma cell_addr k : wrap (AW - al) (b + k) * B = cellb k.
    Proof.
      unfold cellb, wrap, B. replace (2 ^ AW) with (2 ^ (AW - al) * 2 ^ al) by (rewrite <- Nat.pow_add_r; f_equal; lia).
      rewrite <- Nat.mul_add_distr_r. rewrite Nat.mul_mod_distr_r; [reflexivity|apply Nat.pow_nonzero; lia|apply Nat.pow_nonzero; lia].
    Qed.
    Lemma cell_next k : (cellb k + B) mod 2 ^ AW = cellb (k + 1).
    Proof. unfold cellb. rewrite Nat.add_mod_idemp_l by (apply Nat.pow_nonzero; lia). f_equal. lia. Qed.
    Definition remains (Q : nat) : nat := if Q =? ITEMS then ITEMS else ITEMS - Q.
    Definition Inv3 (started : bool) (s : w_st A) (cur : option (nat * nat)) (Q W K : nat) (q : list A) : Prop :=
      (started = true -> w_base s = wrap (AW - al) (b + match w_fsm s with Idle | ReqPending | Prepare => K | _ => Q end)) /\
      (started = false -> w_fsm s = Idle) /\
      w_rem s = remains (match w_fsm s with Idle | ReqPending | Prepare => K | _ => Q end) /\
      match w_fsm s with
      | Idle => cur = None /\ TIMEOUT <= w_tmo s + Nat.min (length q) burst /\ w_tmo s <= TIMEOUT
      | ReqPending => cur = None /\ burst <= length q /\ ovld (w_buf s) = true
      | Prepare => cur = Some (cellb W, Q - W - 1) /\ burst <= length q /\ ovld (w_buf s) = true
      | Send => cur = Some (cellb W, w_cnt s) /\ w_cnt s + 1 <= length q /\ ovld (w_buf s) = true
      | WaitForAck => cur = None /\ W = Q
      end.
    Lemma remw : ITEMS < 2 ^ wrem_w ITEMS. Proof. unfold wrem_w. pose proof (log2ceil_ge (ITEMS + 1)). lia. Qed.
    Lemma inv3_step started s cur R Q W K n q i : Inv s R Q W K n q -> Inv3 started s cur Q W K q ->
      (if started then x_base i = None else x_base i = Some (b * B) /\ K = 0) -> x_wr i = None -> e_wr i = true -> e_v i = true ->
      (ack_now i = true -> W = Q /\ 0 < n) -> next_room PW R i < K + M -> next_room PW R i <= ITEMS ->
      let o := snd (step s i) in let c := (i, o) in let q' := ((if f_wv o && e_wr i then tl q else q) ++ (if e_v i && f_r o then [e_d i] else [])) in
      exists cur', Inv3 true (fst (step s i)) cur' (Q + w_asked [c]) (W + length (w_words [c])) (if ack_now i then Q else K) q' /\
        let sent := f_wv o && e_wr i in let rq := f_qv o && e_qrd i in
        (sent = true -> rq = false /\ exists a m, cur = Some (a, m) /\ a = cellb W /\ f_wl o = (m =? 0) /\ cur' = if m =? 0 then None else Some ((a + B) mod 2 ^ AW, m - 1)) /\
        (rq = true -> cur = None /\ cur' = Some (f_qa o, f_ql o)) /\
        (sent = false -> rq = false -> cur' = cur).
    Proof.
      intros (HR & Hrp & Hwp & HQR & HRK & Hlen & HF) (H3b & H3s & H3r & H3) Hxb Hxw Hew Hev Hack Hroom HroomI.
      pose proof (room_ge R i) as Hge. pose proof burst_w as Hbw. pose proof burst1 as Hb1. pose proof burst_cap as Hbc. pose proof remw as Hrw.
      pose proof (hrep_step CAP HC _ _ (mk_hin (e_v i) (e_d i) (e_wr i && is_send (w_fsm s))) HR) as HS. cbn zeta in HS. destruct HS as (HS1 & HS2 & HS3 & HS4 & HS5 & _ & HS7 & HS8).
      pose proof (step_out CAP (w_buf s) (mk_hin (e_v i) (e_d i) (e_wr i && is_send (w_fsm s)))) as Eo.
      unfold w_step. destruct (hsf_step CAP (w_buf s) (mk_hin (e_v i) (e_d i) (e_wr i && is_send (w_fsm s)))) as [buf' bo].
      cbn [fst snd i_vld i_data i_rd] in *. cbn zeta. rewrite Hxw, Hew, Hev in *. unfold w_asked, w_words, w_reqs, ack_now in *. cbn [flat_map fst snd f_r f_qv f_qa f_ql f_wv f_wd f_wl f_ar]. rewrite !app_nil_r, ?Hew, ?Hev.
      set (ack := e_av i && e_aid i) in *. unfold Inv3. cbn [w_buf w_rp w_wp w_len w_fsm w_cnt w_tmo w_base w_rem w_nb].
      assert (Evl : h_vld bo = ovld (w_buf s)) by (rewrite Eo; reflexivity).
      fold al. unfold widx_w, to_index in *. fold al in Hxb |- *. 
      assert (HK : started = false -> K = 0) by (destruct started; [discriminate|tauto]).
      assert (Hx0 : wrap (AW - al) (b * B / 2 ^ al) = wrap (AW - al) (b + 0)) by (unfold B; rewrite Nat.div_mul by (apply Nat.pow_nonzero; lia); f_equal; lia).
      destruct (w_fsm s) eqn:Ef; cbn [is_idle is_req is_prep is_send is_wack andb negb] in *; rewrite ?andb_false_r, ?andb_true_r in *; cbn [andb length map list_sum fold_right] in *; rewrite ?Nat.add_0_r.
      - destruct HF as (-> & -> & -> & Ht). destruct H3 as (-> & Htm & Htm2). assert (ack = false) as Ea by (destruct ack; [destruct (Hack eq_refl); lia|reflexivity]). rewrite Ea in *. cbn [andb].
        exists None. split; [|split; [discriminate|split; [discriminate|reflexivity]]].
        assert (Hbase : (match x_base i with Some b0 => wrap (AW - al) (b0 / 2 ^ al) | None => w_base s end) = wrap (AW - al) (b + K)).
        { destruct started; [rewrite Hxb; auto|]. destruct Hxb as [-> ->]. exact Hx0. }
        destruct (Nat.eqb_spec (w_tmo s) 0) as [T0|T0]; [lia|]. cbn [orb negb andb]. rewrite HS5.
        destruct (Nat.ltb_spec (burst - 1) (length q)) as [L|L]; cbn [andb].
        + destruct (negb (winc PW (w_wp s) =? w_rp s)); cbn [andb]; rewrite ?andb_false_r.
          * split; [intros _; exact Hbase|]. split; [discriminate|]. split; [exact H3r|]. split; [reflexivity|]. split; [rewrite app_length; lia|].
            rewrite Evl in *. destruct (ovld (w_buf s)); [destruct (HS3 eq_refl eq_refl); assumption|]. apply HS7; [reflexivity|]. destruct q; [cbn in L; lia|discriminate].
          * split; [intros _; exact Hbase|]. split; [discriminate|]. split; [exact H3r|]. split; [reflexivity|]. rewrite app_length. split; lia.
        + rewrite (HS4 ltac:(lia)). split; [intros _; exact Hbase|]. split; [discriminate|]. split; [exact H3r|]. split; [reflexivity|]. rewrite app_length. cbn [length].
          destruct (negb (length q =? 0) && negb (winc PW (w_wp s) =? w_rp s)); split; lia.
      - destruct HF as (-> & -> & -> & Ht). destruct H3 as (-> & Hq & Hv). assert (ack = false) as Ea by (destruct ack; [destruct (Hack eq_refl); lia|reflexivity]). rewrite Ea in *. cbn [andb].
        assert (started = true) as -> by (destruct started; [reflexivity|discriminate (H3s eq_refl)]). rewrite Hxb. rewrite Evl, Hv in *. destruct (HS3 eq_refl eq_refl) as [Hv' _]. specialize (H3b eq_refl).
        destruct (e_qrd i); cbn [map list_sum fold_right length snd].
        + eexists. split; [|split; [discriminate|split; [intros _; split; [reflexivity|reflexivity]|discriminate]]].
          split; [intros _; exact H3b|]. split; [discriminate|]. split; [exact H3r|]. split; [|split; [rewrite app_length; lia|exact Hv']].
          f_equal. f_equal; [rewrite H3b; apply cell_addr|lia].
        + exists None. split; [|split; [discriminate|split; [discriminate|reflexivity]]]. split; [intros _; exact H3b|]. split; [discriminate|]. split; [exact H3r|]. split; [reflexivity|]. split; [rewrite app_length; lia|exact Hv'].
      - destruct HF as (-> & -> & ->). destruct H3 as (-> & Hq & Hv). assert (ack = false) as Ea by (destruct ack; [destruct (Hack eq_refl); lia|reflexivity]). rewrite Ea in *. cbn [andb].
        assert (started = true) as -> by (destruct started; [reflexivity|discriminate (H3s eq_refl)]). rewrite Hxb. rewrite Evl, Hv in *. destruct (HS3 eq_refl eq_refl) as [Hv' _]. specialize (H3b eq_refl).
        eexists. split; [|split; [discriminate|split; [discriminate|reflexivity]]].
        split; [intros _; rewrite H3b|split; [discriminate|split]].
        + unfold wrap. pose proof (pow2_pos (AW - al)) as Pm. set (m := 2 ^ (AW - al)) in *. rewrite (Nat.add_mod_idemp_r ((b + K) mod m)), (Nat.add_mod_idemp_l (b + K)), Nat.add_mod_idemp_l by lia. f_equal. lia.
        + unfold winc. rewrite (wrap_small _ (w_len s)) by lia. rewrite (wrap_small _ (w_len s + 1)) by lia. rewrite H3r. unfold remains.
          destruct (Nat.eqb_spec K ITEMS); [lia|]. destruct (Nat.leb_spec (ITEMS - K) (w_len s + 1)); destruct (Nat.eqb_spec (K + w_len s + 1) ITEMS); try lia.
          unfold wrap. replace (ITEMS - K + 2 ^ wrem_w ITEMS - (w_len s + 1)) with (ITEMS - (K + w_len s + 1) + 1 * 2 ^ wrem_w ITEMS) by lia. rewrite Nat.mod_add by lia. apply Nat.mod_small. lia.
        + rewrite (wrap_small _ (w_len s)) by lia. split; [f_equal; f_equal; lia|]. split; [rewrite app_length; lia|exact Hv'].
      - destruct HF as (HQ & HW & -> & Hcl). destruct H3 as (-> & Hq & Hv). assert (ack = false) as Ea by (destruct ack; [destruct (Hack eq_refl); lia|reflexivity]). rewrite Ea in *. cbn [andb negb orb].
        assert (started = true) as -> by (destruct started; [reflexivity|discriminate (H3s eq_refl)]). rewrite Hxb. rewrite Evl, Hv in *. specialize (H3b eq_refl). cbn [andb length].
        eexists. split; [|split; [intros _; split; [reflexivity|exists (cellb W), (w_cnt s); repeat split; reflexivity]|split; [discriminate|discriminate]]].
        destruct (Nat.eqb_spec (w_cnt s) 0) as [C0|C0].
        + split; [intros _; exact H3b|]. split; [discriminate|]. split; [exact H3r|]. split; [reflexivity|lia].
        + split; [intros _; exact H3b|]. split; [discriminate|]. split; [exact H3r|]. rewrite wdec_pos by lia. split; [rewrite cell_next; reflexivity|].
          assert (length (tl q) = length q - 1) as Etl by (destruct q; cbn; lia).
          split; [rewrite app_length; lia|]. apply HS8; [reflexivity|reflexivity|]. destruct (tl q); [cbn in Etl; lia|discriminate].
      - destruct HF as (HQ & HW & ->). destruct H3 as (-> & ->).
        assert (started = true) as -> by (destruct started; [reflexivity|discriminate (H3s eq_refl)]). rewrite Hxb. specialize (H3b eq_refl). exists None. split; [|split; [discriminate|split; [discriminate|reflexivity]]].
        destruct ack; cbn [andb]; (split; [intros _; exact H3b|]); (split; [discriminate|]); (split; [exact H3r|]); (split; [reflexivity|]); [split; lia|reflexivity].
    Qed.

    Lemma written_req rs (ws : list (A * bool)) c : written B AW None (c :: rs) ws = written B AW (Some c) rs ws.
    Proof. destruct ws as [|[d l] ws]; reflexivity. Qed.
    Lemma block_law is : forall s cur R Q W K n q, Inv s R Q W K n q -> Inv3 true s cur Q W K q -> no_wr is -> steady is ->
      let t := trace step s is in acks_ok Q W n t -> w_fits PW R K Q t -> room PW R t <= ITEMS ->
      exists l, written B AW cur (w_reqs t) (w_words t) = Some l /\ map fst l = map cellb (seq W (length (w_words t))) /\ map snd l = map fst (w_words t).
    Proof.
      induction is as [|i is IH]; intros s cur R Q W K n q H H3 Hn Hst t Ha Hf Hro.
      - subst t. exists []. auto.
      - subst t. rewrite trace_cons in *. inversion Hn as [|? ? Hn1 Hn2]; subst. inversion Hst as [|? ? (Hs1 & Hs2 & Hs3) Hst2]; subst. cbn [acks_ok w_fits fst snd room] in Ha, Hf, Hro. destruct Ha as [Ha1 Ha2], Hf as [Hf1 Hf2].
        assert (HRI : next_room PW R i <= ITEMS).
        { eapply Nat.le_trans; [|exact Hro]. clear - HC HT. generalize (next_room PW R i) as r. generalize (trace step (fst (step s i)) is) as t. induction t as [|c t IH]; intros r; cbn [room]; [lia|]. eapply Nat.le_trans; [apply (room_ge r (fst c))|apply IH]. }
        destruct (inv_step s R Q W K n q i H Hn1 Ha1 Hf1) as [HI1 _]. destruct (inv3_step true s cur R Q W K n q i H H3 Hs1 Hn1 Hs2 Hs3 Ha1 Hf1 HRI) as (cur' & HI3 & Hsent & Hrq & Hno). cbn zeta in *.
        destruct (IH _ _ _ _ _ _ _ _ HI1 HI3 Hn2 Hst2 Ha2 Hf2 Hro) as (l & E1 & E2 & E3). rewrite w_words_cons, w_reqs_cons.
        set (o := snd (step s i)) in *. set (t := trace step (fst (step s i)) is) in *.
        assert (w_words [(i, o)] = if f_wv o && e_wr i then [(f_wd o, f_wl o)] else []) as Ew by (unfold w_words; cbn [flat_map fst snd]; apply app_nil_r).
        assert (w_reqs [(i, o)] = if f_qv o && e_qrd i then [(f_qa o, f_ql o)] else []) as Er by (unfold w_reqs; cbn [flat_map fst snd]; apply app_nil_r).
        rewrite Ew in *. rewrite Er in *. destruct (f_wv o && e_wr i) eqn:Es.
        + destruct (Hsent eq_refl) as (Hr & a & m & -> & -> & El & ->). rewrite Hr. cbn [app length map fst snd] in *. cbn [written]. rewrite El, Bool.eqb_reflx, E1. eexists. split; [reflexivity|].
          cbn [map fst snd seq]. rewrite E2, E3, Nat.add_1_r. auto.
        + cbn [app length map] in *. rewrite Nat.add_0_r in E2. exists l. split; [|auto]. destruct (f_qv o && e_qrd i) eqn:Eq.
          * destruct (Hrq eq_refl) as [-> ->]. cbn [app]. rewrite written_req. exact E1.
          * rewrite <- (Hno eq_refl eq_refl). exact E1.
    Qed.
    Lemma inv3_init m0 d0 x y z : Inv3 false (w_init CAP ITEMS PW TIMEOUT m0 d0 x y z) None 0 0 0 [].
    Proof. split; [discriminate|]. split; [reflexivity|]. split; [cbn [w_rem w_fsm w_init]; unfold remains; destruct (Nat.eqb_spec 0 ITEMS); lia|]. cbn [w_fsm w_init w_tmo length]. split; [reflexivity|]. cbn [Nat.min]. lia. Qed.
    Lemma block_top m0 d0 x y z i0 is : x_base i0 = Some (b * B) -> e_wr i0 = true -> e_v i0 = true -> no_wr (i0 :: is) -> steady is ->
      let t := trace step (w_init CAP ITEMS PW TIMEOUT m0 d0 x y z) (i0 :: is) in acks_ok 0 0 0 t -> w_fits PW 0 0 0 t -> room PW 0 t <= ITEMS ->
      exists l, written B AW None (w_reqs t) (w_words t) = Some l /\ map fst l = map cellb (seq 0 (length (w_words t))) /\ map snd l = map fst (w_words t).
    Proof.
      intros Hb1 Hb2 Hb3 Hn Hst t Ha Hf Hro. subst t. set (s0 := w_init CAP ITEMS PW TIMEOUT m0 d0 x y z) in *. rewrite trace_cons in *. inversion Hn as [|? ? Hn1 Hn2]; subst. cbn [acks_ok w_fits fst snd room] in Ha, Hf, Hro. destruct Ha as [Ha1 Ha2], Hf as [Hf1 Hf2].
      assert (HRI : next_room PW 0 i0 <= ITEMS).
      { eapply Nat.le_trans; [|exact Hro]. clear - HC HT. generalize (next_room PW 0 i0) as r. generalize (trace step (fst (step s0 i0)) is) as t. induction t as [|c t IH]; intros r; cbn [room]; [lia|]. eapply Nat.le_trans; [apply (room_ge r (fst c))|apply IH]. }
      pose proof (inv_init m0 d0 x y z) as H. fold s0 in H. pose proof (inv3_init m0 d0 x y z) as H3. fold s0 in H3.
      destruct (inv_step s0 0 0 0 0 0 [] i0 H Hn1 Ha1 Hf1) as [HI1 _]. destruct (inv3_step false s0 None 0 0 0 0 0 [] i0 H H3 (conj Hb1 eq_refl) Hn1 Hb2 Hb3 Ha1 Hf1 HRI) as (cur' & HI3 & Hsent & Hrq & Hno). cbn zeta in *.
      assert (f_wv (snd (step s0 i0)) = false /\ f_qv (snd (step s0 i0)) = false) as [E1 E2].
      { unfold w_step, s0. cbn [w_fsm w_init is_send is_req]. rewrite andb_false_r. destruct (hsf_step _ _ _). cbn [snd f_wv f_qv]. rewrite andb_false_r. auto. }
      rewrite E1, E2 in *. cbn [andb] in *.
      rewrite w_words_cons, w_reqs_cons.
      assert (w_words [(i0, snd (step s0 i0))] = []) as -> by (unfold w_words; cbn [flat_map fst snd]; rewrite E1; reflexivity).
      assert (w_reqs [(i0, snd (step s0 i0))] = []) as Er by (unfold w_reqs; cbn [flat_map fst snd]; rewrite E2; reflexivity).
      rewrite Er. cbn [app]. rewrite (Hno eq_refl eq_refl) in HI3.
      assert (w_words [(i0, snd (step s0 i0))] = []) as Ew by (unfold w_words; cbn [flat_map fst snd]; rewrite E1; reflexivity).
      assert (w_asked [(i0, snd (step s0 i0))] = 0) as Ek by (unfold w_asked; rewrite Er; reflexivity).
      rewrite Ew, Er, Ek in *. cbn [length plus Nat.add] in *.
      exact (block_law is _ _ _ _ _ _ _ _ HI1 HI3 Hn2 Hst Ha2 Hf2 Hro).
    Qed.
  End Block.
End P.

Lemma wal_pow a : 1 <= a -> w_al (8 * 2 ^ a) = a.
Proof.
  intros H. unfold w_al. rewrite Nat.mul_comm, Nat.div_mul by lia. unfold log2ceil. assert (2 <= 2 ^ a) as Hp by (destruct a; [lia|]; cbn [Nat.pow]; pose proof (pow2_pos a); lia).
  destruct (Nat.leb_spec (2 ^ a) 1); [lia|]. apply Nat.log2_up_pow2. lia.
Qed.
Lemma t94_block {A : Type} (CAP ITEMS AW a PW TIMEOUT : nat) : w_elaborates CAP ITEMS = true -> 2 <= CAP -> wburst CAP < TIMEOUT -> 1 <= a <= AW ->
  forall (m0 : nat -> A) (d0 : A) (x y z base : nat) (i0 : w_in A) (is : list (w_in A)), x_base i0 = Some base -> base < 2 ^ AW -> base mod 2 ^ a = 0 -> e_wr i0 = true -> e_v i0 = true -> no_wr (i0 :: is) -> steady is ->
  forall mem, let t := trace (w_step CAP ITEMS AW (8 * 2 ^ a) PW TIMEOUT) (w_init CAP ITEMS PW TIMEOUT m0 d0 x y z) (i0 :: is) in
  acks_ok 0 0 0 t -> w_fits PW 0 0 0 t -> room PW 0 t <= ITEMS ->
  exists l, written (8 * 2 ^ a / 8) AW None (w_reqs t) (w_words t) = Some l /\ map snd l = firstn (length (w_words t)) (w_items t) /\
            map fst l = map (target mem (8 * 2 ^ a / 8) AW ITEMS base) (seq 0 (length (w_words t))).
Proof.
  intros He HC HT Ha m0 d0 x y z base i0 is Hx Hb Hm E1 E2 Hn Hs mem t Hak Hf Hr. apply Nat.leb_le in He.
  replace (8 * 2 ^ a / 8) with (2 ^ a) by (rewrite Nat.mul_comm, Nat.div_mul; lia).
  pose proof (block_top (A := A) CAP ITEMS AW (8 * 2 ^ a) PW TIMEOUT HC ltac:(lia) (base / 2 ^ a)) as L. rewrite (wal_pow a) in L by lia.
  assert (base / 2 ^ a * 2 ^ a = base) as Eb by (pose proof (Nat.div_mod base (2 ^ a) ltac:(apply Nat.pow_nonzero; lia)) as D; lia).
  assert (base / 2 ^ a < 2 ^ (AW - a)) as Hlt by (apply Nat.div_lt_upper_bound; [apply Nat.pow_nonzero; lia|]; rewrite <- Nat.pow_add_r; replace (a + (AW - a)) with AW by lia; exact Hb).
  rewrite Eb in L. destruct (L He HT ltac:(lia) Hlt m0 d0 x y z i0 is Hx E1 E2 Hn Hs Hak Hf Hr) as (l & L1 & L2 & L3). fold t in L1, L2, L3. exists l. split; [exact L1|]. split.
  - rewrite L3. unfold t. apply t94_order; lia.
  - rewrite L2. pose proof (t94_space (A := A) CAP ITEMS AW (8 * 2 ^ a) PW TIMEOUT HC ltac:(lia) m0 d0 x y z (i0 :: is) Hn Hak Hf) as Hsp. fold t in Hsp.
    apply map_ext_in. intros k Hk. apply in_seq in Hk. unfold cellb, target. rewrite (Nat.div_small k), (Nat.mod_small k) by lia. cbn [node]. rewrite (wal_pow a) by lia. rewrite Eb. reflexivity.
Qed.

(** a request whose last word was not sent is never completed *)
Lemma stuck {A : Type} (CAP ITEMS AW DW PW TIMEOUT : nat) (js : list (w_in A)) : forall s q w n, w_fsm s = WaitForAck -> w < q ->
  let t := trace (w_step CAP ITEMS AW DW PW TIMEOUT) s js in acks_ok q w n t -> w_words t = [] /\ w_reqs t = [].
Proof.
  induction js as [|i js IH]; intros s q w n Hf Hw t Ha; [auto|]. subst t. rewrite trace_cons in *. cbn [acks_ok fst snd] in Ha. destruct Ha as [Ha1 Ha2].
  assert (ack_now i = false) as En by (destruct (ack_now i); [destruct (Ha1 eq_refl); lia|reflexivity]).
  assert (E : w_fsm (fst (w_step CAP ITEMS AW DW PW TIMEOUT s i)) = WaitForAck /\ f_wv (snd (w_step CAP ITEMS AW DW PW TIMEOUT s i)) = false /\ f_qv (snd (w_step CAP ITEMS AW DW PW TIMEOUT s i)) = false).
  { unfold w_step. rewrite Hf. cbn [is_send]. rewrite andb_false_r. destruct (hsf_step _ _ _). cbn [fst snd w_fsm f_wv f_qv is_req]. unfold ack_now in En. rewrite En, andb_false_r. auto. }
  destruct E as (E1 & E2 & E3). set (o := snd (w_step CAP ITEMS AW DW PW TIMEOUT s i)) in *.
  assert (w_words [(i, o)] = []) as Ew by (unfold w_words; cbn [flat_map fst snd]; rewrite E2; reflexivity).
  assert (w_reqs [(i, o)] = []) as Er by (unfold w_reqs; cbn [flat_map fst snd]; rewrite E3; reflexivity).
  rewrite w_words_cons, w_reqs_cons, Ew, Er. cbn [app]. eapply IH; [exact E1| |exact Ha2]. unfold w_asked. rewrite Ew, Er. cbn. lia.
Qed.
