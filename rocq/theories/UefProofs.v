(** Proofs about the endpoint machine of a USB device. *)
From Verif Require Import Base BaseFacts UefModel UefSpec UefCases.

Section P.
  Variables has_out has_in : nat -> bool.
  Notation step := (uf_step has_out has_in).

  Lemma events_app x y : events (x ++ y) = events x ++ events y.
  Proof. apply flat_map_app. Qed.
  Lemma events_cons s i is : events (trace step s (i :: is)) = ev_of (i, uf_o s i) ++ events (trace step (fst (step s i)) is).
  Proof. rewrite trace_cons. reflexivity. Qed.
  Lemma step_calm s i : f_rst i = false -> fst (step s i) = uf_next has_out has_in s i.
  Proof. intros H. unfold uf_step. cbn [fst]. now rewrite H. Qed.

  Lemma hs_run hs : forall s p, u_st s = TX_HANDSHAKE -> u_pid s = Some p -> until_sent hs -> (forall i, In i hs -> e_tstall i = true -> p = P_STALL) ->
    final step s hs = mk_uf RX_IDLE (Some p) (u_out s) (u_in s) /\ events (trace step s hs) = [EvHs (Some p)].
  Proof.
    induction hs as [|i hs IH]; intros s p Hs Hp Hu Ht; [destruct Hu|].
    assert (Epid : (if e_tstall i then Some P_STALL else u_pid s) = Some p).
    { destruct (e_tstall i) eqn:E; [|exact Hp]. rewrite (Ht i (or_introl eq_refl) E). reflexivity. }
    rewrite events_cons, final_cons. destruct hs as [|j hs].
    - destruct Hu as ((Hr & _ & _) & Hc). rewrite step_calm by exact Hr. unfold uf_next, uf_o. rewrite Hs, Hc. cbn. rewrite Epid, Hp, ?Hc. auto.
    - destruct Hu as ((Hr & _ & _) & Hc & Hu). rewrite step_calm by exact Hr. unfold uf_next, uf_o. rewrite Hs, Hc. cbn [ev_of o_cv o_rv andb app]. rewrite ?Hc. cbn [app].
      apply (IH s p Hs Hp Hu). intros x Hx. apply Ht. now right.
  Qed.

  Lemma tx_run e body : has_in e = true -> forall s, u_st s = TX_DATA -> tx_packet e body ->
    final step s body = mk_uf TX_DATA_COMPLETE (u_pid s) (u_out s) (upd (u_in s) e (negb (u_in s e))) /\
    events (trace step s body) = flat_map (fun i => if e_tv i && c_rd i then [EvTx (u_pid s) (e_tl i)] else []) body.
  Proof.
    intros He. induction body as [|i body IH]; intros s Hs Hp; [destruct Hp|]. rewrite events_cons, final_cons. cbn [flat_map]. destruct body as [|j body].
    - destruct Hp as ((Hr & _ & _) & Hend & Hv & Hc & Hl). rewrite step_calm by exact Hr. unfold uf_next, uf_o, tx_next. rewrite Hs, Hv, Hc, Hl. cbn [andb].
      unfold set_in, in_bit. rewrite Hend, He. cbn. rewrite Hc, Hl. auto.
    - destruct Hp as ((Hr & _ & _) & Hend & Hn & Hp). rewrite step_calm by exact Hr. unfold uf_next at 1 2, uf_o, tx_next. rewrite Hs, Hn.
      destruct (IH s Hs Hp) as [H1 H2]. split; [exact H1|]. rewrite H2. unfold ev_of. cbn [o_cv o_rv o_el o_pid]. rewrite app_nil_r. reflexivity.
  Qed.

  Lemma gap_run gap : forall s, u_st s = RX_DATA \/ u_st s = RX_DATA_IGNORE -> Forall (fun i => calm i /\ silent i) gap ->
    final step s gap = s /\ events (trace step s gap) = [].
  Proof.
    induction gap as [|i gap IH]; intros s Hs HF; [auto|]. inversion HF as [|? ? [(Hr & _ & Hh) (Hv & Hd)] HF']; subst. rewrite events_cons, final_cons, step_calm by exact Hr.
    assert (E : uf_next has_out has_in s i = s /\ ev_of (i, uf_o s i) = []).
    { unfold uf_next, uf_o, data_next, ignore_next, out_pid_error. destruct Hs as [-> | ->]; rewrite ?Hh, ?Hv, ?Hd; cbn; split; try reflexivity; now rewrite Hv. }
    destruct E as [-> ->]. apply IH; assumption.
  Qed.

  Lemma ig_run e body : forall s, u_st s = RX_DATA_IGNORE -> rx_packet e body ->
    final step s body = mk_uf (if rx_bad body then RX_IDLE else TX_HANDSHAKE) (u_pid s) (u_out s) (u_in s) /\ events (trace step s body) = [].
  Proof.
    induction body as [|i body IH]; intros s Hs Hp; [destruct Hp|]. rewrite events_cons, final_cons. unfold rx_bad. cbn [existsb]. destruct body as [|j body].
    - destruct Hp as ((Hr & _ & _) & _ & Hv & Hl). rewrite step_calm by exact Hr. unfold uf_next, uf_o, ignore_next. rewrite Hs, Hv, Hl. cbn. rewrite orb_false_r.
      destruct (d_err i); auto.
    - destruct Hp as ((Hr & _ & _) & _ & Hn & Hd & Hp). rewrite step_calm by exact Hr. unfold uf_next at 1 2, uf_o, ignore_next. rewrite Hs, Hn, Hd. cbn [orb].
      destruct (IH s Hs Hp) as [H1 H2]. split; [exact H1|]. rewrite H2. reflexivity.
  Qed.

  Lemma rx_run e body : has_out e = true -> forall s, u_st s = RX_DATA -> rx_packet e body ->
    final step s body = (if rx_bad body then mk_uf RX_IDLE (u_pid s) (u_out s) (u_in s)
                         else mk_uf TX_HANDSHAKE (Some P_ACK) (upd (u_out s) e (negb (u_out s e))) (u_in s)) /\
    events (trace step s body) = flat_map (fun i => if d_vld i then [EvRx (d_last i) (d_err i)] else []) body.
  Proof.
    intros He. induction body as [|i body IH]; intros s Hs Hp; [destruct Hp|]. rewrite events_cons, final_cons. unfold rx_bad. cbn [existsb flat_map]. destruct body as [|j body].
    - destruct Hp as ((Hr & _ & Hh) & Hend & Hv & Hl). rewrite step_calm by exact Hr. unfold uf_next, uf_o, data_next, out_pid_error. rewrite Hs, Hh, Hv, Hl. cbn.
      unfold set_out, out_bit. rewrite Hend, He, ?Hv, ?Hl. destruct (d_err i); auto.
    - destruct Hp as ((Hr & _ & Hh) & _ & Hn & Hd & Hp). rewrite step_calm by exact Hr. unfold uf_next at 1 2, uf_o, data_next, out_pid_error. rewrite Hs, Hn, Hd, Hh. cbn [orb andb].
      destruct (IH s Hs Hp) as [H1 H2]. split; [exact H1|]. rewrite H2. unfold ev_of. cbn [o_cv o_rv andb]. rewrite Hd. reflexivity.
  Qed.

  Definition Rel (s : uf_st) (tg : toggles) : Prop :=
    u_st s = RX_IDLE /\ (forall e, u_out s e = tg_out tg e) /\ (forall e, u_in s e = tg_in tg e).

  Lemma pause_run l : forall s, u_st s = RX_IDLE -> Forall calm l ->
    u_st (final step s l) = RX_IDLE /\ u_out (final step s l) = u_out s /\ u_in (final step s l) = u_in s /\ events (trace step s l) = [].
  Proof.
    induction l as [|i l IH]; intros s Hs HF; [auto|]. inversion HF as [|? ? (Hr & Hc & Hh) HF']; subst. rewrite events_cons, final_cons, step_calm by exact Hr.
    unfold uf_next, uf_o, idle_next. rewrite Hs, Hh, Hc. cbn [ev_of o_cv o_rv andb app].
    destruct (IH (mk_uf RX_IDLE None (u_out s) (u_in s)) eq_refl HF') as (H1 & H2 & H3 & H4). auto.
  Qed.

  Lemma run_split a b s : final step s (a ++ b) = final step (final step s a) b /\ events (trace step s (a ++ b)) = events (trace step s a) ++ events (trace step (final step s a) b).
  Proof. split; [apply final_app|]. rewrite trace_app, events_app. reflexivity. Qed.

  (** what the tokens do *)
  Lemma in_token s tok e : u_st s = RX_IDLE -> header tok P_IN e -> events (trace step s [tok]) = [] /\
    final step s [tok] = match in_answer tok with
                         | Stall => mk_uf TX_HANDSHAKE (Some P_STALL) (u_out s) (u_in s)
                         | Nak => mk_uf TX_HANDSHAKE (Some P_NACK) (u_out s) (u_in s)
                         | Ready => mk_uf TX_DATA (Some (if in_bit has_in s tok then P_DATA1 else P_DATA0)) (u_out s) (u_in s)
                         end.
  Proof.
    intros Hs (Hr & _ & Hh & _ & Hp & _). rewrite events_cons, final_cons, step_calm by exact Hr. unfold uf_next, uf_o, idle_next, in_answer. rewrite Hs, Hh, Hp.
    cbn [Nat.eqb P_IN]. split; [reflexivity|]. destruct (e_tstall tok), (e_tv tok); reflexivity.
  Qed.
  Lemma out_token s tok e (setup : bool) : u_st s = RX_IDLE -> header tok (if setup then P_SETUP else P_OUT) e -> events (trace step s [tok]) = [] /\
    final step s [tok] = (let o := if setup then upd (u_out s) e false else u_out s in let n := if setup then upd (u_in s) e true else u_in s in
                         match out_answer setup tok with
                         | Stall => mk_uf RX_DATA_IGNORE (Some P_STALL) o n
                         | Nak => mk_uf RX_DATA_IGNORE (Some P_NACK) o n
                         | Ready => mk_uf RX_DATA None o n
                         end).
  Proof.
    intros Hs (Hr & _ & Hh & _ & Hp & He). rewrite events_cons, final_cons, step_calm by exact Hr. unfold uf_next, uf_o, idle_next, out_answer. rewrite Hs, Hh, Hp.
    split; [reflexivity|]. unfold set_out, set_in. rewrite He. destruct setup; cbn; destruct (e_rstall tok), (e_rrd tok); reflexivity.
  Qed.
  Lemma header_ok s hdr e : u_st s = RX_DATA -> has_out e = true -> silent hdr -> f_rst hdr = false -> h_vld hdr = true -> h_endp hdr = e ->
    h_pid hdr = data_pid (u_out s e) -> events (trace step s [hdr]) = [] /\ final step s [hdr] = s.
  Proof.
    intros Hs Ho (Hv & Hd) Hr Hh He Hp. rewrite events_cons, final_cons, step_calm by exact Hr. unfold uf_next, uf_o, data_next, out_pid_error, out_bit.
    rewrite Hs, Hh, He, Ho, Hp, Hv, Hd. unfold data_pid. destruct (u_out s e); cbn; rewrite ?Hv; auto.
  Qed.
  Lemma header_ig s hdr : u_st s = RX_DATA_IGNORE -> silent hdr -> f_rst hdr = false -> events (trace step s [hdr]) = [] /\ final step s [hdr] = s.
  Proof.
    intros Hs (Hv & Hd) Hr. rewrite events_cons, final_cons, step_calm by exact Hr. unfold uf_next, uf_o, ignore_next. rewrite Hs, Hv. auto.
  Qed.

  Lemma upd_ext {A} (f g : nat -> A) e v : (forall x, f x = g x) -> forall x, upd f e v x = upd g e v x.
  Proof. intros H x. unfold upd. destruct (x =? e); auto. Qed.

  Lemma served_step s tg x : Rel s tg -> well_formed has_out has_in x -> served tg x ->
    events (trace step s (cycles x)) = fst (respond tg x) /\ Rel (final step s (cycles x)) (snd (respond tg x)).
  Proof.
    intros (Hs & HO & HI) HW HV. destruct x as [l|i|i|tok hs|e a tok hs|e tok body fin ack|e setup a tok gap hdr body hs|e a tok hs]; cbn [cycles respond fst snd] in *.
    - destruct (pause_run l s Hs HW) as (H1 & H2 & H3 & H4). split; [exact H4|]. unfold Rel. rewrite H2, H3. auto.
    - rewrite events_cons, final_cons. unfold uf_o. rewrite Hs. split; [reflexivity|]. unfold uf_step. cbn [fst final fold_left]. cbn in HW. rewrite HW. unfold Rel. cbn. auto.
    - destruct HW as (Hr & Hc & Hh & Hn). rewrite events_cons, final_cons, step_calm by exact Hr. unfold uf_next, uf_o, idle_next. rewrite Hs, Hh.
      split; [reflexivity|]. cbn [In] in Hn.
      destruct (Nat.eqb_spec (h_pid i) P_IN); [exfalso; apply Hn; auto|]. destruct (Nat.eqb_spec (h_pid i) P_PING); [exfalso; apply Hn; auto|].
      destruct (Nat.eqb_spec (h_pid i) P_OUT); [exfalso; apply Hn; auto|]. destruct (Nat.eqb_spec (h_pid i) P_SETUP); [exfalso; apply Hn; auto 6|].
      unfold Rel. cbn. auto.
    - destruct HV.
    - destruct HW as (Ht & Ha & Hn & Hu & Hst). change (tok :: hs) with ([tok] ++ hs). destruct (run_split [tok] hs s) as [-> ->].
      destruct (in_token s tok e Hs Ht) as [-> ->]. rewrite Ha.
      destruct a; [| |congruence].
      + destruct (hs_run hs (mk_uf TX_HANDSHAKE (Some P_STALL) (u_out s) (u_in s)) P_STALL eq_refl eq_refl Hu) as [-> ->]; [auto|]. split; [reflexivity|]. unfold Rel. cbn. auto.
      + destruct (hs_run hs (mk_uf TX_HANDSHAKE (Some P_NACK) (u_out s) (u_in s)) P_NACK eq_refl eq_refl Hu) as [-> ->]; [intros i Hi E; discriminate (Hst i Hi E)|].
        split; [reflexivity|]. unfold Rel. cbn. auto.
    - destruct HW as (Ht & Hin & Ha & Hp & Hf & Hk). destruct ack as [ai|]; [|congruence]. specialize (Hk ai eq_refl).
      change (tok :: body ++ fin :: [ai]) with ([tok] ++ body ++ [fin; ai]). destruct (run_split [tok] (body ++ [fin; ai]) s) as [-> ->].
      destruct (in_token s tok e Hs Ht) as [-> ->]. rewrite Ha. set (p := Some (if in_bit has_in s tok then P_DATA1 else P_DATA0)).
      destruct (run_split body [fin; ai] (mk_uf TX_DATA p (u_out s) (u_in s))) as [-> ->].
      destruct (tx_run e body Hin (mk_uf TX_DATA p (u_out s) (u_in s)) eq_refl Hp) as [-> ->]. cbn [u_pid u_out u_in].
      assert (Ep : p = Some (data_pid (tg_in tg e))). { unfold p, in_bit. destruct Ht as (_ & _ & _ & _ & _ & He). rewrite He, Hin, HI. reflexivity. }
      rewrite Ep. destruct Hf as (Hfr & _ & _). destruct Hk as (Hkr & Hkc & Hkh & _ & Hkp & _).
      rewrite events_cons, final_cons, step_calm by exact Hfr. unfold uf_next, uf_o. cbn [u_st u_pid u_out u_in].
      rewrite events_cons, final_cons, step_calm by exact Hkr. unfold uf_next, uf_o, idle_next. cbn [u_st u_pid u_out u_in]. rewrite Hkh, Hkp. cbn.
      split; [now rewrite app_nil_r|]. unfold Rel. cbn. split; [reflexivity|]. split; [exact HO|]. rewrite HI. apply upd_ext, HI.
    - destruct HW as (Ht & Ha & Hout & Hg & Hsil & Hhr & _ & Hhv & Hhe & _ & Hp & Hhs). destruct HV as [Hfr Hst].
      change (tok :: gap ++ hdr :: body ++ hs) with ([tok] ++ gap ++ [hdr] ++ body ++ hs).
      destruct (run_split [tok] (gap ++ [hdr] ++ body ++ hs) s) as [-> ->]. destruct (out_token s tok e setup Hs Ht) as [-> ->]. rewrite Ha. cbv zeta.
      set (o := if setup then upd (u_out s) e false else u_out s). set (n := if setup then upd (u_in s) e true else u_in s).
      set (tg1 := if setup then mk_tg (upd (tg_out tg) e false) (upd (tg_in tg) e true) else tg).
      assert (Ho : forall x, o x = tg_out tg1 x) by (unfold o, tg1; destruct setup; [apply upd_ext; exact HO|exact HO]).
      assert (Hn : forall x, n x = tg_in tg1 x) by (unfold n, tg1; destruct setup; [apply upd_ext; exact HI|exact HI]).
      destruct a.
      + destruct (run_split gap ([hdr] ++ body ++ hs) (mk_uf RX_DATA_IGNORE (Some P_STALL) o n)) as [-> ->].
        destruct (gap_run gap (mk_uf RX_DATA_IGNORE (Some P_STALL) o n) (or_intror eq_refl) Hg) as [-> ->].
        destruct (run_split [hdr] (body ++ hs) (mk_uf RX_DATA_IGNORE (Some P_STALL) o n)) as [-> ->].
        destruct (header_ig (mk_uf RX_DATA_IGNORE (Some P_STALL) o n) hdr eq_refl Hsil Hhr) as [-> ->].
        destruct (run_split body hs (mk_uf RX_DATA_IGNORE (Some P_STALL) o n)) as [-> ->].
        destruct (ig_run e body (mk_uf RX_DATA_IGNORE (Some P_STALL) o n) eq_refl Hp) as [-> ->]. cbn [u_pid u_out u_in].
        destruct (rx_bad body).
        * subst hs. split; [reflexivity|]. unfold Rel. cbn. auto.
        * destruct (hs_run hs (mk_uf TX_HANDSHAKE (Some P_STALL) o n) P_STALL eq_refl eq_refl Hhs) as [-> ->]; [auto|]. split; [reflexivity|]. unfold Rel. cbn. auto.
      + destruct (run_split gap ([hdr] ++ body ++ hs) (mk_uf RX_DATA_IGNORE (Some P_NACK) o n)) as [-> ->].
        destruct (gap_run gap (mk_uf RX_DATA_IGNORE (Some P_NACK) o n) (or_intror eq_refl) Hg) as [-> ->].
        destruct (run_split [hdr] (body ++ hs) (mk_uf RX_DATA_IGNORE (Some P_NACK) o n)) as [-> ->].
        destruct (header_ig (mk_uf RX_DATA_IGNORE (Some P_NACK) o n) hdr eq_refl Hsil Hhr) as [-> ->].
        destruct (run_split body hs (mk_uf RX_DATA_IGNORE (Some P_NACK) o n)) as [-> ->].
        destruct (ig_run e body (mk_uf RX_DATA_IGNORE (Some P_NACK) o n) eq_refl Hp) as [-> ->]. cbn [u_pid u_out u_in].
        destruct (rx_bad body).
        * subst hs. split; [reflexivity|]. unfold Rel. cbn. auto.
        * destruct (hs_run hs (mk_uf TX_HANDSHAKE (Some P_NACK) o n) P_NACK eq_refl eq_refl Hhs) as [-> ->]; [intros i Hi E; discriminate (Hst i Hi E)|].
          split; [reflexivity|]. unfold Rel. cbn. auto.
      + specialize (Hfr eq_refl). rewrite Hfr.
        destruct (run_split gap ([hdr] ++ body ++ hs) (mk_uf RX_DATA None o n)) as [-> ->].
        destruct (gap_run gap (mk_uf RX_DATA None o n) (or_introl eq_refl) Hg) as [-> ->].
        destruct (run_split [hdr] (body ++ hs) (mk_uf RX_DATA None o n)) as [-> ->].
        assert (Hhp : h_pid hdr = data_pid (o e)).
        { unfold fresh in Hfr. apply Nat.eqb_eq in Hfr. rewrite Hfr. f_equal. rewrite Ho. unfold tg1. destruct setup; [|reflexivity]. cbn. unfold upd. now rewrite Nat.eqb_refl. }
        destruct (header_ok (mk_uf RX_DATA None o n) hdr e eq_refl Hout Hsil Hhr Hhv Hhe Hhp) as [-> ->].
        destruct (run_split body hs (mk_uf RX_DATA None o n)) as [-> ->].
        destruct (rx_run e body Hout (mk_uf RX_DATA None o n) eq_refl Hp) as [-> ->]. cbn [u_pid u_out u_in].
        destruct (rx_bad body).
        * subst hs. cbn [trace run fst snd events flat_map app]. split; [cbn; now rewrite app_nil_r|]. unfold Rel. cbn. auto.
        * destruct (hs_run hs (mk_uf TX_HANDSHAKE (Some P_ACK) (upd o e (negb (o e))) n) P_ACK eq_refl eq_refl Hhs) as [-> ->]; [intros i Hi E; discriminate (Hst i Hi E)|].
          split; [reflexivity|]. unfold Rel. cbn. split; [reflexivity|]. split; [|exact Hn]. rewrite Ho. apply upd_ext, Ho.
    - destruct HV.
  Qed.

  Lemma served_run l : forall s tg, Rel s tg -> Forall (well_formed has_out has_in) l -> all_served tg l ->
    events (trace step s (flat_map cycles l)) = respond_all tg l.
  Proof.
    induction l as [|x l IH]; intros s tg HR HF HA; [reflexivity|]. inversion HF; subst. destruct HA as [HV HA]. cbn [flat_map respond_all].
    destruct (run_split (cycles x) (flat_map cycles l) s) as [_ ->]. destruct (served_step s tg x HR) as [-> HR']; try assumption. now rewrite (IH _ _ HR').
  Qed.
  Lemma served_init l p0 : Forall (well_formed has_out has_in) l -> all_served tg0 l ->
    events (trace step (uf_init p0) (flat_map cycles l)) = respond_all tg0 l.
  Proof. apply served_run. unfold Rel. cbn. auto. Qed.
End P.

Lemma uc_all_wf : Forall (well_formed uc_has uc_has) uc_all.
Proof.
  unfold uc_all. repeat apply Forall_cons; try apply Forall_nil.
  all: cbn; unfold header, calm, silent, in_answer, out_answer; cbn.
  all: repeat split; auto.
  all: try (intros i H; injection H as <-; repeat split; reflexivity).
  all: try (repeat constructor; cbn; auto; fail).
  all: try discriminate.
  all: try (intros i [<-|[]]; discriminate).
  all: try (intros [H|[H|[H|[H|[]]]]]; discriminate).
  all: match goal with H : Some _ = Some _ |- _ => injection H as <-; reflexivity end.
Qed.
Lemma uc_all_served : all_served tg0 uc_all.
Proof.
  cbn -[fresh]. repeat split; auto; try discriminate; intros i H; cbn in H;
    repeat (destruct H as [<-|H]; [discriminate|]); destruct H.
Qed.
Ltac wf_one := cbn; unfold header, calm, silent, in_answer, out_answer; cbn; repeat split; auto; try discriminate; try (repeat constructor; cbn; auto; fail).
Lemma bad_refuted : exists tok hs, well_formed uc_has uc_has (TBad tok hs) /\ respond_all tg0 [TBad tok hs] = [] /\
  events (trace (uf_step uc_has uc_has) (uf_init None) (cycles (TBad tok hs))) = [EvHs (Some P_NACK)].
Proof. exists (uc true true P_IN false false false true false false false true), [c_sent]. split; [wf_one|split; reflexivity]. Qed.
Lemma ping_refuted : exists e tok hs, well_formed uc_has uc_has (TPing e Ready tok hs) /\
  respond_all tg0 [TPing e Ready tok hs] = [EvHs (Some P_ACK)] /\
  events (trace (uf_step uc_has uc_has) (uf_init None) (cycles (TPing e Ready tok hs))) = [EvHs (Some P_NACK)].
Proof. exists 1, (c_tok P_PING true false), [c_sent]. split; [wf_one|split; reflexivity]. Qed.
Lemma lost_refuted : exists x y, Forall (well_formed uc_has uc_has) [x; y] /\ (exists e tok b fin, x = TInData e tok b fin None) /\
  events (trace (uf_step uc_has uc_has) (uf_init None) (flat_map cycles [x; y])) <> respond_all tg0 [x; y].
Proof.
  exists uc_lost, uc_lost. split; [repeat apply Forall_cons; try apply Forall_nil; wf_one|]. split; [unfold uc_lost; eauto|]. vm_compute. discriminate.
Qed.
Lemma repeat_refuted : exists e gap hdr body hs tok, let x := TOut e false Ready tok gap hdr body hs in well_formed uc_has uc_has x /\
  events (trace (uf_step uc_has uc_has) (uf_init None) (flat_map cycles [x; x])) <> respond_all tg0 [x; x].
Proof.
  exists 1, [c_quiet], (c_tok P_DATA0 true false), [c_rx true false], [c_quiet; c_sent], (c_tok P_OUT true false).
  split; [wf_one|]. vm_compute. discriminate.
Qed.
Lemma outonly_refuted : exists e tok gap hdr body hs, let x := TOut e false Ready tok gap hdr body hs in well_formed uc_has uc_has x /\
  events (trace (uf_step uc_has uc_has) (uf_init None) (cycles x)) <> fst (respond tg0 x).
Proof.
  exists 1, (c_tok P_OUT true false), [], (c_tok P_DATA0 true false), [c_rx true false], [uc false false 0 false false false true true false true true].
  split; [wf_one|]. vm_compute. discriminate.
Qed.
