From Verif Require Import Base BaseFacts StreamSpec StreamFacts FifoModel FifoSpec FifoProofs HsFifoProofs AvmModel AvmSpec AvmProofs.
Local Arguments wrap : simpl never. Local Arguments wdec : simpl never. Local Arguments winc : simpl never. Local Arguments Nat.pow : simpl never.

Section Reads.
  Context {AD ID D M : Type}.
  Variable RP : bool.
  Variable DEPTH : nat.
  Hypothesis HD : 2 < DEPTH.
  Notation St := (avm_st AD ID D).
  Notation In_ := (avm_in AD ID D M).
  Notation cyc := (avm_in AD ID D M * avm_out AD ID D M)%type.
  Notation step := (avm_step (M := M) RP DEPTH).
  Notation en := (en_of RP DEPTH).

  Definition ans (x : ID * nat) : list (ID * bool) := repeat (fst x, false) (snd x) ++ [(fst x, true)].
  Definition open_c (s : St) : list (ID * bool) := if c_vld s then ans (c_id s, c_len s) else [].
  Lemma answer_ans (l : list (AD * ID * nat)) : flat_map answer l = flat_map (fun a => ans (snd (fst a), snd a)) l.
  Proof. induction l as [|[[x d] n] l IH]; [reflexivity|]. cbn [flat_map]. rewrite IH. reflexivity. Qed.
  Lemma ans_len x : length (ans x) = snd x + 1.
  Proof. unfold ans. rewrite app_length, repeat_length. reflexivity. Qed.
  Lemma total_req (l : list (AD * ID * nat)) : total (map snd (map req l)) = length (flat_map answer l).
  Proof.
    induction l as [|[[x d] n] l IH]; [reflexivity|]. cbn [map flat_map]. rewrite app_length, <- IH.
    change (answer (x, d, n)) with (ans (d, n)). rewrite ans_len. reflexivity.
  Qed.
  Lemma total_app a b : total (a ++ b) = total a + total b.
  Proof. unfold total. apply list_sum_app. Qed.

  Record RI (s : St) (t : list cyc) (sq : list (ID * nat)) (dq : list D) : Prop := {
    ri_sf : HRep DEPTH (sf s) sq;
    ri_df : HRep DEPTH (df s) dq;
    ri_dat : rets t = map dat (rs t) ++ dq;
    ri_ans : flat_map answer (ars t) = map mark (rs t) ++ open_c s ++ flat_map ans sq;
    ri_cap : cap s + length (open_c s) + length (flat_map ans sq) = DEPTH;
    ri_len : c_vld s = true -> c_len s < 256;
    ri_lens : Forall (fun x => snd x < 256) sq;
    ri_new : ovld (sf s) = false -> sq <> [] -> length sq = 1 /\ t_vld s = true /\ t_isw s = false /\ length (flat_map ans sq) = t_olen s + 1;
    ri_wait : c_vld s = false -> ovld (sf s) = true -> ovld (df s) = false;
    ri_one : ovld (df s) = false -> length dq <= 1 }.

  (** words in the fifo have been requested *)
  Lemma held s t sq dq : RI s t sq dq -> RQ s t -> length (rets t) <= total (map snd (reads t)) ->
    length dq + total (map snd (pend_r s)) <= length (open_c s) + length (flat_map ans sq).
  Proof.
    intros R [Q _] He. pose proof (f_equal (fun l => total (map snd l)) Q) as E. cbn beta in E.
    rewrite total_req, map_app, total_app, (ri_ans _ _ _ _ R), !app_length, map_length in E.
    rewrite (ri_dat _ _ _ _ R), app_length, map_length in He. lia.
  Qed.
  Lemma no_new s t sq dq : RI s t sq dq -> RQ s t -> length (rets t) <= total (map snd (reads t)) ->
    ovld (sf s) = false -> length dq <= length (open_c s).
  Proof.
    intros R Q He Ho. pose proof (held _ _ _ _ R Q He) as H. destruct sq as [|x sq']; [cbn in H; lia|].
    destruct (ri_new _ _ _ _ R Ho) as (H1 & H2 & H3 & H4); [discriminate|]. unfold pend_r in H. rewrite H2, H3 in H. cbn in H. cbn in H4. lia.
  Qed.
  (** the counter is loaded before the first word is there *)
  Lemma dv_cv s t sq dq : RI s t sq dq -> RQ s t -> length (rets t) <= total (map snd (reads t)) -> ovld (df s) = true -> c_vld s = true.
  Proof.
    intros R Q He Hd. destruct (c_vld s) eqn:Ec; [reflexivity|]. exfalso.
    destruct (ovld (sf s)) eqn:Es; [rewrite (ri_wait _ _ _ _ R Ec Es) in Hd; discriminate|].
    pose proof (no_new _ _ _ _ R Q He Es) as H. unfold open_c in H. rewrite Ec in H. cbn in H.
    destruct (ri_df _ _ _ _ R) as [qi [_ E]]. rewrite Hd in E. subst dq. cbn in H. lia.
  Qed.
  Lemma ovld_sf_len s q : HRep (A := D) DEPTH s q -> ovld s = true -> 1 <= length q.
  Proof. intros [qi [_ E]] H. rewrite H in E. subst. cbn. lia. Qed.

  Lemma cap_lt s t sq dq : RI s t sq dq -> cap s < 2 ^ cap_w DEPTH.
  Proof. intros R. pose proof (ri_cap _ _ _ _ R). pose proof (log2ceil_ge (DEPTH + 1)). unfold cap_w. lia. Qed.
  Lemma csub_ok x y : y <= x -> x < 2 ^ cap_w DEPTH -> csub DEPTH x y = x - y.
  Proof.
    intros H1 H2. unfold csub, wrap. replace (x + 2 ^ cap_w DEPTH - y) with (x - y + 1 * 2 ^ cap_w DEPTH) by lia.
    rewrite Nat.mod_add by lia. apply Nat.mod_small. lia.
  Qed.

  Lemma ri_step s t sq dq i : RI s t sq dq -> RQ s t -> let c := (i, snd (step s i)) in
    v_arl i < 256 -> v_awl i < 256 -> (v_arv i = true -> v_arl i < 2 ^ cap_w DEPTH) ->
    length (rets t) <= total (map snd (reads t)) -> length (rets (t ++ [c])) <= total (map snd (reads (t ++ [c]))) ->
    exists sq' dq', RI (fst (step s i)) (t ++ [c]) sq' dq'.
  Proof.
    intros R Q c L1 L2 L3 He He'.
    assert (t_vld s = true -> t_olen s < 256) as Ho by (intros E; destruct (proj2 Q E); assumption).
    pose proof (dv_cv _ _ _ _ R Q He) as Hcv. pose proof (held _ _ _ _ R Q He) as Hheld.
    destruct (st_all RP DEPTH s i) as (Esf & Edf & Et & Ecap & Ec). destruct (out_all RP DEPTH s i) as (_ & _ & _ & Orv & Orid & Ord & Orl & _).
    set (s' := fst (step s i)) in *.
    assert (rets (t ++ [c]) = rets t ++ (if v_rdv i then [v_rdat i] else [])) as Erets by (unfold rets; rewrite evs_snoc; reflexivity).
    assert (rs (t ++ [c]) = rs t ++ (if rack_of s i then [(c_id s, h_data (snd (hsf_step DEPTH (df s) (df_in s i))), c_len s =? 0)] else [])) as Ers.
    { unfold rs. rewrite evs_snoc. unfold c. cbn [fst snd]. rewrite Orv, Orid, Ord, Orl. unfold rack_of.
      destruct (ovld (df s)) eqn:E; [rewrite Hcv by reflexivity|]; destruct (v_rrd i); reflexivity. }
    assert (ars (t ++ [c]) = ars t ++ (if en s i then [(v_ara i, v_arid i, v_arl i)] else [])) as Ears by apply ars_snoc.
    assert (reads (t ++ [c]) = reads t ++ (if v_wait i then [] else pend_r s)) as Erd by (apply reads_snoc; exact Ho).
    pose proof (hs_next DEPTH ltac:(lia) _ _ (sf_in RP DEPTH s i) (ri_sf _ _ _ _ R)) as Nsf.
    pose proof (hs_next DEPTH ltac:(lia) _ _ (df_in s i) (ri_df _ _ _ _ R)) as Ndf.
    pose proof (hs_ovld DEPTH ltac:(lia) _ _ (sf_in RP DEPTH s i) (ri_sf _ _ _ _ R)) as Osf.
    pose proof (hs_ovld DEPTH ltac:(lia) _ _ (df_in s i) (ri_df _ _ _ _ R)) as Odf.
    rewrite <- Esf in Nsf, Osf. rewrite <- Edf in Ndf, Odf. unfold sf_in, df_in in Nsf, Ndf, Osf, Odf. cbn [i_vld i_data i_rd] in Nsf, Ndf, Osf, Odf.
    (* the size is stored, the word is stored *)
    assert (en s i && negb (f_wwait (hf (sf s))) = en s i) as Esfw.
    { unfold en_of, ar_en. destruct (negb (f_wwait (hf (sf s)))), RP; rewrite ?andb_false_r; cbn; rewrite ?andb_true_r; reflexivity. }
    rewrite Esfw in Nsf.
    assert (v_rdv i && negb (f_wwait (hf (df s))) = v_rdv i) as Edfw.
    { destruct (v_rdv i) eqn:Ev; [|reflexivity]. rewrite (hs_wwait DEPTH ltac:(lia) _ _ (ri_df _ _ _ _ R)). cbn [andb].
      assert (length dq + 1 <= DEPTH) as Hl.
      { rewrite Erets, Erd, map_app, total_app, app_length in He'. pose proof (proj1 Q) as E. apply (f_equal (fun l => total (map snd l))) in E.
        rewrite total_req, map_app, total_app, (ri_ans _ _ _ _ R), !app_length, map_length in E. rewrite (ri_dat _ _ _ _ R), app_length, map_length in He'.
        pose proof (ri_cap _ _ _ _ R). cbn [length] in He'. destruct (v_wait i); cbn [total list_sum map fold_right] in He'; lia. }
      pose proof (ri_one _ _ _ _ R). destruct (ovld (df s)); cbn [b2n]; lia. }
    rewrite Edfw in Ndf.
    assert (ovld (df s) && (v_rrd i && c_vld s) = rack_of s i) as Edel.
    { unfold rack_of. destruct (ovld (df s)); [rewrite Hcv by reflexivity; rewrite andb_true_r|]; reflexivity. }
    rewrite Edel in Ndf.
    set (sq' := (if ovld (sf s) && ns_of s i then tl sq else sq) ++ (if en s i then [(v_arid i, v_arl i)] else [])) in *.
    set (dq' := (if rack_of s i then tl dq else dq) ++ (if v_rdv i then [v_rdat i] else [])) in *.
    exists sq', dq'.
    (* the counter and the sizes *)
    assert (rack_of s i = true -> c_vld s = true) as Hrc by (unfold rack_of; intros E; apply Hcv; destruct (ovld (df s)); [reflexivity|discriminate E]).
    assert (open_c s ++ flat_map ans sq = (if rack_of s i then [(c_id s, c_len s =? 0)] else []) ++ open_c s' ++ flat_map ans (if ovld (sf s) && ns_of s i then tl sq else sq)
            /\ (c_vld s' = true -> c_len s' < 256)) as [Emove Hc'].
    { unfold open_c. assert (Hhd := hs_head DEPTH ltac:(lia) _ _ (sf_in RP DEPTH s i) (ri_sf _ _ _ _ R)).
      set (h := h_data (snd (hsf_step DEPTH (sf s) (sf_in RP DEPTH s i)))) in *. clearbody h. pose proof (ri_lens _ _ _ _ R) as Hls.
      unfold ns_of in *. destruct (c_vld s) eqn:Ecv; cbn [negb orb] in *.
      - destruct (rack_of s i) eqn:Er; rewrite ?andb_true_r, ?andb_false_r in *.
        + destruct (Nat.eqb_spec (c_len s) 0) as [E0|E0]; injection Ec as E1 E2 E3; rewrite E1, E2, E3.
          * rewrite E0. cbn [andb]. destruct (ovld (sf s)) eqn:Eo; cbn [andb].
            -- destruct (Hhd eq_refl) as [q' ->]. cbn [tl flat_map]. split; [rewrite <- surjective_pairing; reflexivity|]. intros _. inversion Hls. assumption.
            -- split; [reflexivity|discriminate].
          * rewrite ?andb_false_r. cbn [negb]. pose proof (ri_len _ _ _ _ R Ecv). rewrite wdec_pos by (change (2 ^ 8) with 256; lia). split; [|lia].
            destruct (c_len s) as [|n]; [lia|]. cbn [Nat.sub]. rewrite Nat.sub_0_r. reflexivity.
        + injection Ec as E1 E2 E3. rewrite E1, E2, E3. rewrite ?andb_false_r. split; [reflexivity|]. intros _. apply (ri_len _ _ _ _ R Ecv).
      - assert (rack_of s i = false) as -> by (destruct (rack_of s i); [discriminate Hrc; reflexivity|reflexivity]).
        injection Ec as E1 E2 E3. rewrite E1, E2, E3, andb_true_r. destruct (ovld (sf s)) eqn:Eo; cbn [andb].
        + destruct (Hhd eq_refl) as [q' ->]. cbn [tl flat_map]. split; [rewrite <- surjective_pairing; reflexivity|]. intros _. inversion Hls. assumption.
        + split; [reflexivity|discriminate]. }
    constructor.
    - exact Nsf.
    - exact Ndf.
    - rewrite Erets, Ers, (ri_dat _ _ _ _ R), map_app, <- !app_assoc. f_equal. unfold dq'. rewrite app_assoc. f_equal.
      destruct (rack_of s i) eqn:Er; [|reflexivity].
      destruct (hs_head DEPTH ltac:(lia) _ _ (df_in s i) (ri_df _ _ _ _ R)) as [q' ->]; [|reflexivity].
      unfold rack_of in Er. destruct (ovld (df s)); [reflexivity|discriminate Er].
    - rewrite Ears, Ers, flat_map_app, (ri_ans _ _ _ _ R), map_app, <- !app_assoc. f_equal. unfold sq'. rewrite flat_map_app, !app_assoc, Emove.
      rewrite <- !app_assoc. destruct (rack_of s i), (en s i); reflexivity.
    - pose proof (f_equal (@length _) Emove) as El. rewrite !app_length in El. unfold sq'. rewrite flat_map_app, app_length, Ecap.
      pose proof (ri_cap _ _ _ _ R) as Hcap. pose proof (cap_lt _ _ _ _ R) as Hclt. unfold cap_next.
      destruct (en s i) eqn:Een.
      + assert (v_arl i < cap s /\ wrap (cap_w DEPTH) (v_arl i) = v_arl i) as [Hl Hw].
        { destruct (en_true RP DEPTH s i Een) as (_ & Hv & _). specialize (L3 Hv). rewrite wrap_small by assumption. split; [|reflexivity].
          unfold en_of, ar_en in Een. rewrite wrap_small in Een by assumption. destruct (v_arl i <? cap s) eqn:E; [lia|].
          destruct RP; rewrite ?andb_false_r in Een; discriminate Een. }
        rewrite Hw. cbn [flat_map app]. rewrite app_nil_r, ans_len. cbn [snd]. destruct (rack_of s i); cbn [andb length] in *.
        * rewrite csub_ok by lia. lia.
        * rewrite wdec_pos by lia. rewrite csub_ok by lia. lia.
      + cbn [flat_map length]. destruct (rack_of s i) eqn:Er; cbn [andb length] in *; [|lia].
        pose proof (log2ceil_ge (DEPTH + 1)). rewrite winc_small by (unfold cap_w in *; lia). lia.
    - exact Hc'.
    - unfold sq'. apply Forall_app. split; [|destruct (en s i); [constructor; [exact L1|constructor]|constructor]].
      pose proof (ri_lens _ _ _ _ R) as Hls. destruct (ovld (sf s) && ns_of s i); [|exact Hls]. destruct sq; [exact Hls|inversion Hls; assumption].
    - intros Eo Hn. rewrite Osf in Eo.
      assert (length (if ovld (sf s) && ns_of s i then tl sq else sq) = 0) as Hz.
      { destruct (ovld (sf s)) eqn:Es; rewrite ?orb_true_r, ?orb_false_r in Eo; cbn [andb negb orb b2n] in *.
        - destruct (ns_of s i); [|discriminate Eo]. destruct sq; [reflexivity|]. cbn in *. destruct sq; [reflexivity|discriminate Eo].
        - destruct sq; [reflexivity|discriminate Eo]. }
      apply length_zero_iff_nil in Hz. unfold sq' in *. rewrite Hz in *. cbn [app] in *.
      destruct (en s i) eqn:Een; [|congruence]. destruct (en_true RP DEPTH s i Een) as (_ & _ & En). rewrite En in Et.
      unfold tmp_of, load_r in Et. injection Et as _ _ _ E4 E5 E6. rewrite E4, E5, E6. cbn [flat_map]. rewrite app_nil_r, ans_len. auto.
    - intros Ecv' Eo. rewrite Osf in Eo. rewrite Odf.
      destruct (ns_of s i) eqn:En.
      + injection Ec as _ _ E3. rewrite E3 in Ecv'. rewrite Ecv' in *. cbn [orb negb b2n] in Eo.
        pose proof (no_new _ _ _ _ R Q He Ecv') as Hnn. unfold ns_of in En. destruct (c_vld s) eqn:Ecv; unfold open_c in Hnn; rewrite Ecv in Hnn.
        * cbn [negb orb] in En. destruct (Nat.eqb_spec (c_len s) 0) as [E0|]; [|discriminate En]. cbn [andb] in En.
          rewrite E0 in Hnn. cbn in Hnn. unfold rack_of in En. destruct (ovld (df s)) eqn:Ed; [|discriminate En]. cbn [andb] in En. rewrite En. cbn [andb orb b2n].
          pose proof (ovld_sf_len _ _ (ri_df _ _ _ _ R) Ed). destruct dq as [|x [|y dq]]; cbn in *; try lia; reflexivity.
        * destruct dq; [|cbn in Hnn; lia]. destruct (ovld (df s)) eqn:Ed; [pose proof (ovld_sf_len _ _ (ri_df _ _ _ _ R) Ed) as H; cbn in H; lia|].
          rewrite orb_true_r. reflexivity.
      + exfalso. unfold ns_of in En. destruct (c_vld s) eqn:Ecv; [|discriminate En]. cbn [negb orb] in En.
        destruct (rack_of s i); injection Ec as _ _ E3; rewrite E3 in Ecv'; [|discriminate Ecv'].
        rewrite andb_true_r in En. rewrite En in Ecv'. discriminate Ecv'.
    - intros Eo. rewrite Odf in Eo. unfold dq'. rewrite app_length.
      assert (length (if rack_of s i then tl dq else dq) = 0) as ->; [|destruct (v_rdv i); cbn; lia].
      unfold rack_of in *. destruct (ovld (df s)) eqn:Ed; cbn [negb orb andb b2n] in *; rewrite ?orb_true_r, ?orb_false_r in Eo.
      + rewrite (Hcv eq_refl), andb_true_r in Eo. destruct (v_rrd i); [|discriminate Eo]. destruct dq as [|x [|y dq]]; [reflexivity|reflexivity|discriminate Eo].
      + destruct dq; [reflexivity|discriminate Eo].
  Qed.
End Reads.
