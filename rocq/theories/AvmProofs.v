From Verif Require Import Base BaseFacts StreamSpec StreamFacts FifoModel FifoSpec FifoProofs HsFifoProofs AvmModel AvmSpec.

(** flags of HandshakedFifo from its contents *)
Local Arguments wrap : simpl never. Local Arguments wdec : simpl never. Local Arguments winc : simpl never. Local Arguments Nat.pow : simpl never.
Section Flags.
  Context {A : Type}.
  Variable DEPTH : nat.
  Hypothesis HD2 : 2 <= DEPTH.
  Definition b2n (b : bool) : nat := if b then 1 else 0.
  Lemma hs_wwait (s : hsf_st A) q : HRep DEPTH s q -> f_wwait (hf s) = (length q =? DEPTH - 1 + b2n (ovld s)).
  Proof.
    intros [qi [R ->]]. rewrite (rep_wwait (DEPTH - 1) ltac:(lia) _ _ R). destruct (ovld s); cbn [length b2n]; lia.
  Qed.
  Lemma hs_rwait (s : hsf_st A) q : HRep DEPTH s q -> f_rwait (hf s) = (length q =? b2n (ovld s)).
  Proof.
    intros [qi [R ->]]. rewrite (rep_rwait (DEPTH - 1) ltac:(lia) _ _ R). destruct (ovld s); cbn [length b2n]; lia.
  Qed.
  Lemma hs_ovld (s : hsf_st A) q i : HRep DEPTH s q ->
    ovld (fst (hsf_step DEPTH s i)) = (if i_rd i || negb (ovld s) then negb (length q =? b2n (ovld s)) else ovld s).
  Proof. intros R. unfold hsf_step. destruct (fifo_step _ _ _). cbn [fst ovld]. rewrite (hs_rwait _ _ R). reflexivity. Qed.
  Lemma hs_out (s : hsf_st A) i : h_vld (snd (hsf_step DEPTH s i)) = ovld s /\ h_rd (snd (hsf_step DEPTH s i)) = negb (f_wwait (hf s)).
  Proof. rewrite (step_out DEPTH). split; reflexivity. Qed.
  Lemma hs_head (s : hsf_st A) q i : HRep DEPTH s q -> ovld s = true -> exists q', q = h_data (snd (hsf_step DEPTH s i)) :: q'.
  Proof. intros R E. destruct (hrep_step DEPTH HD2 s q i R) as (_ & H & _). rewrite (proj1 (hs_out s i)) in H. auto. Qed.
  Lemma hs_next (s : hsf_st A) q i : HRep DEPTH s q ->
    HRep DEPTH (fst (hsf_step DEPTH s i)) ((if ovld s && i_rd i then tl q else q) ++ (if i_vld i && negb (f_wwait (hf s)) then [i_data i] else [])).
  Proof.
    intros R. destruct (hrep_step DEPTH HD2 s q i R) as (H & _). rewrite (proj1 (hs_out s i)), (proj2 (hs_out s i)) in H. exact H.
  Qed.
End Flags.

Section Avm.
  Context {AD ID D M : Type}.
  Variable RP : bool.
  Variable DEPTH : nat.
  Notation St := (avm_st AD ID D).
  Notation In_ := (avm_in AD ID D M).
  Notation cyc := (avm_in AD ID D M * avm_out AD ID D M)%type.
  Notation step := (avm_step (M := M) RP DEPTH).

  Definition en_of (s : St) (i : In_) : bool := ar_en RP DEPTH s i (negb (f_wwait (hf (sf s)))).
  Definition rack_of (s : St) (i : In_) : bool := ovld (df s) && v_rrd i.
  Definition ns_of (s : St) (i : In_) : bool := negb (c_vld s) || ((c_len s =? 0) && rack_of s i).
  Definition sf_in (s : St) (i : In_) := mk_hin (en_of s i) (v_arid i, v_arl i) (ns_of s i).
  Definition df_in (s : St) (i : In_) := mk_hin (v_rdv i) (v_rdat i) (v_rrd i && c_vld s).

  Ltac open_step := unfold avm_step; fold (en_of) ; cbv zeta.
  Lemma st_all s i :
    sf (fst (step s i)) = fst (hsf_step DEPTH (sf s) (sf_in s i)) /\
    df (fst (step s i)) = fst (hsf_step DEPTH (df s) (df_in s i)) /\
    tmp_of (fst (step s i)) = tmp_next RP s i (en_of s i) /\
    cap (fst (step s i)) = cap_next DEPTH s i (rack_of s i) (en_of s i) /\
    (c_id (fst (step s i)), c_len (fst (step s i)), c_vld (fst (step s i))) =
      (if ns_of s i then (let h := h_data (snd (hsf_step DEPTH (sf s) (sf_in s i))) in (fst h, snd h, ovld (sf s)))
       else if rack_of s i then (c_id s, wdec 8 (c_len s), negb (c_len s =? 0)) else (c_id s, c_len s, c_vld s)).
  Proof.
    rewrite <- (proj1 (hs_out DEPTH (sf s) (sf_in s i))).
    unfold avm_step, sf_in, df_in, en_of, ns_of, rack_of. cbv zeta.
    destruct (hsf_step DEPTH (sf s) _) as [sf' so]. destruct (hsf_step DEPTH (df s) _) as [df' d_o].
    destruct (tmp_next RP s i _) as [[[[[a d] l] ol] w] v]. cbn [fst snd].
    destruct (negb (c_vld s) || _); [|destruct (ovld (df s) && v_rrd i)]; cbn [fst snd sf df tmp_of t_addr t_id t_len t_olen t_isw t_vld cap c_id c_len c_vld]; auto.
  Qed.
  Lemma out_all s i : let o := snd (step s i) in
    o_arrd o = will_idle s i && en_of s i /\ o_awrd o = will_idle s i && aw_en RP s i /\
    o_wrd o = is_w s && negb (v_wait i) && w_go s i /\
    o_rv o = ovld (df s) && c_vld s /\ o_rid o = c_id s /\ o_rd o = h_data (snd (hsf_step DEPTH (df s) (df_in s i))) /\ o_rlast o = (c_len s =? 0) /\
    o_bv o = is_w s && negb (v_wait i) && (is_w s && negb (v_wait i) && w_go s i) && v_wv i && v_wl i /\ o_bid o = t_id s /\
    o_addr o = t_addr s /\ o_burst o = wrap burst_w (t_olen s + 1) /\ o_read o = t_vld s && negb (t_isw s) /\
    o_write o = is_w s && v_wv i && w_go s i /\ o_wd o = v_wd i /\ o_ws o = v_ws i.
  Proof.
    cbv zeta. rewrite <- (proj1 (hs_out DEPTH (df s) (df_in s i))).
    unfold avm_step, sf_in, df_in, en_of, ns_of, rack_of, is_w. cbv zeta.
    destruct (hsf_step DEPTH (sf s) _) as [sf' so]. destruct (hsf_step DEPTH (df s) _) as [df' d_o].
    destruct (tmp_next RP s i _) as [[[[[a d] l] ol] w] v]. cbn [fst snd].
    destruct (negb (c_vld s) || _); [|destruct (ovld (df s) && v_rrd i)];
      cbn [fst snd o_arrd o_awrd o_wrd o_rv o_rid o_rd o_rlast o_bv o_bid o_addr o_burst o_read o_write o_wd o_ws]; repeat (apply conj); reflexivity.
  Qed.

  Lemma evs_snoc {E} (c : cyc -> bool) (v : cyc -> E) t x : evs c v (t ++ [x]) = evs c v t ++ (if c x then [v x] else []).
  Proof. unfold evs. rewrite flat_map_app. cbn. rewrite app_nil_r. reflexivity. Qed.

  Definition dec_of (s : St) (i : In_) : bool := negb (v_wait i) && not_last_w s && v_wv i.
  Definition new_of (s : St) (i : In_) : bool := will_idle s i && v_awv i && v_wv i.
  Lemma en_true s i : en_of s i = true -> will_idle s i = true /\ v_arv i = true /\ tmp_next RP s i true = load_r i.
  Proof.
    unfold en_of, ar_en, tmp_next, will_idle, not_last_w, is_w. intros H.
    destruct RP, (t_vld s), (t_isw s), (v_wait i), (v_arv i), (v_awv i), (v_wv i), (t_len s =? 0), (v_brd i); cbn in *;
      try discriminate H; try (rewrite ?andb_false_r in H; discriminate H); auto.
  Qed.
  Lemma en_false s i : tmp_next RP s i false =
    (if dec_of s i then load_dec s else if new_of s i then load_w i else if tmp_ack s i then load_0 s else tmp_of s).
  Proof. unfold tmp_next, dec_of, new_of. destruct RP; reflexivity. Qed.

  (** requests of reads *)
  Definition pend_r (s : St) : list (AD * nat) := if t_vld s && negb (t_isw s) then [(t_addr s, t_olen s + 1)] else [].
  Definition RQ (s : St) (t : list cyc) : Prop :=
    map req (ars t) = reads t ++ pend_r s /\ (t_vld s = true -> t_olen s < 256 /\ t_len s <= t_olen s).

  Lemma ars_snoc s i t : ars (t ++ [(i, snd (step s i))]) = ars t ++ (if en_of s i then [(v_ara i, v_arid i, v_arl i)] else []).
  Proof.
    unfold ars. rewrite evs_snoc. cbn [fst snd]. destruct (out_all s i) as (-> & _).
    destruct (en_of s i) eqn:E; [destruct (en_true s i E) as (-> & -> & _); reflexivity|]. rewrite !andb_false_r. reflexivity.
  Qed.
  Lemma burst_ok (s : St) : (t_vld s = true -> t_olen s < 256) -> t_vld s = true -> wrap burst_w (t_olen s + 1) = t_olen s + 1.
  Proof. intros H E. specialize (H E). apply wrap_small. unfold burst_w. change (2 ^ 9) with 512. lia. Qed.
  Lemma reads_snoc s i t : (t_vld s = true -> t_olen s < 256) ->
    reads (t ++ [(i, snd (step s i))]) = reads t ++ (if v_wait i then [] else pend_r s).
  Proof.
    intros H. unfold reads. rewrite evs_snoc. cbn [fst snd].
    destruct (out_all s i) as (_ & _ & _ & _ & _ & _ & _ & _ & _ & -> & -> & -> & _). unfold pend_r.
    destruct (t_vld s) eqn:E, (t_isw s), (v_wait i); cbn; try reflexivity. rewrite (burst_ok s) by (rewrite ?E; auto). reflexivity.
  Qed.

  Ltac fields H := unfold tmp_of, load_r, load_w, load_0, load_dec in H; injection H; clear H;
    let a := fresh "Ea" in let b := fresh "Eb" in let c := fresh "Ec" in let d := fresh "Ed" in let e := fresh "Ee" in let f := fresh "Ef" in
    intros f e d c b a; unfold pend_r, is_w in *; rewrite ?a, ?b, ?c, ?d, ?e, ?f in *.

  Lemma rq_step s t i : RQ s t -> v_arl i < 256 -> v_awl i < 256 -> RQ (fst (step s i)) (t ++ [(i, snd (step s i))]).
  Proof.
    intros [H1 H2] L1 L2. assert (t_vld s = true -> t_olen s < 256) as Ho by (intros E; destruct (H2 E); assumption).
    destruct (st_all s i) as (_ & _ & Ht & _ & _). split.
    - rewrite ars_snoc, (reads_snoc _ _ _ Ho), map_app, H1, <- !app_assoc. f_equal.
      destruct (en_of s i) eqn:E.
      + destruct (en_true s i E) as (Ew & _ & En). rewrite En in Ht. fields Ht. cbn [andb negb].
        destruct (v_wait i) eqn:Ewt; [|reflexivity].
        unfold will_idle in Ew. rewrite Ewt in Ew. destruct (t_vld s), (t_isw s); cbn in *; try discriminate Ew; reflexivity.
      + rewrite en_false in Ht. cbn [map]. rewrite app_nil_r.
        destruct (dec_of s i) eqn:Ed; [|destruct (new_of s i) eqn:En; [|destruct (tmp_ack s i) eqn:Ek]]; fields Ht; cbn [andb negb].
        * unfold dec_of, not_last_w, is_w in Ed. destruct (t_vld s), (t_isw s); rewrite ?andb_false_r in Ed; try discriminate Ed. cbn. destruct (v_wait i); reflexivity.
        * unfold new_of, will_idle in En. destruct (t_vld s), (t_isw s), (v_wait i); try discriminate En; reflexivity.
        * unfold tmp_ack in Ek. destruct (v_wait i); [discriminate Ek|]. rewrite app_nil_r. reflexivity.
        * unfold tmp_ack, is_w in Ek. destruct (v_wait i); [reflexivity|]. destruct (t_vld s), (t_isw s); try discriminate Ek; reflexivity.
    - destruct (en_of s i) eqn:E.
      + destruct (en_true s i E) as (_ & _ & En). rewrite En in Ht. fields Ht. lia.
      + rewrite en_false in Ht. destruct (dec_of s i) eqn:Ed; [|destruct (new_of s i); [|destruct (tmp_ack s i)]].
        * unfold dec_of, not_last_w in Ed. destruct (Nat.eqb_spec (t_len s) 0) as [E0|E0]; [rewrite !andb_false_r in Ed; discriminate Ed|].
          fields Ht. intros Ev. specialize (H2 Ev). rewrite wdec_pos by (change (2 ^ 8) with 256; lia). lia.
        * fields Ht. lia.
        * fields Ht. discriminate.
        * fields Ht. exact H2.
  Qed.
End Avm.
