From Verif Require Import Base BaseFacts StreamSpec StreamFacts FifoModel FifoSpec FifoProofs HsFifoProofs AvmModel AvmSpec AvmProofs AvmReads.
Local Arguments wrap : simpl never. Local Arguments wdec : simpl never. Local Arguments winc : simpl never. Local Arguments Nat.pow : simpl never.

Section Writes.
  Context {AD ID D M : Type}.
  Variable RP : bool.
  Variable DEPTH : nat.
  Notation St := (avm_st AD ID D).
  Notation In_ := (avm_in AD ID D M).
  Notation cyc := (avm_in AD ID D M * avm_out AD ID D M)%type.
  Notation step := (avm_step (M := M) RP DEPTH).
  Notation en := (en_of RP DEPTH).

  Definition beat (s : St) (i : In_) : bool := is_w s && v_wv i && w_go s i && negb (v_wait i).
  Definition acc_w (s : St) (i : In_) : bool := v_awv i && (will_idle s i && aw_en RP s i).
  Definition cur (s : St) : list (AD * ID * nat) := if is_w s then [(t_addr s, t_id s, t_olen s)] else [].
  (** a read which is offered when the bridge is idle is accepted *)
  Definition quick (s : St) (i : In_) : Prop := RP = true -> v_arv i = true -> will_idle s i = true -> en s i = true.

  Lemma acc_new s i : quick s i -> acc_w s i = new_of s i && negb (en s i).
  Proof.
    unfold quick, acc_w, new_of, aw_en, w_go. intros Q.
    assert (RP = false -> en s i = true -> v_awv i && v_wv i = false) as Q2.
    { intros E. unfold en_of, ar_en. rewrite E. destruct (v_awv i && v_wv i); [rewrite andb_false_r; discriminate|reflexivity]. }
    assert (RP = true -> v_arv i = false -> en s i = false) as Q3.
    { intros E E2. unfold en_of, ar_en. rewrite E, E2, andb_false_r. reflexivity. }
    destruct (en s i) eqn:Een.
    - destruct RP eqn:Erp.
      + destruct (v_arv i); [|specialize (Q3 eq_refl eq_refl); discriminate Q3]. cbn. rewrite !andb_false_r. reflexivity.
      + specialize (Q2 eq_refl eq_refl). destruct (v_awv i), (v_wv i); try discriminate Q2; rewrite ?andb_false_r; reflexivity.
    - destruct (will_idle s i) eqn:Ew; [|rewrite !andb_false_r; reflexivity].
      assert (RP && v_arv i = false) as Hn.
      { destruct RP; [|reflexivity]. destruct (v_arv i); [|reflexivity]. specialize (Q eq_refl eq_refl eq_refl). discriminate Q. }
      unfold will_idle in Ew.
      destruct RP, (v_arv i), (v_awv i), (v_wv i), (t_vld s), (t_isw s), (v_wait i), (t_len s =? 0), (v_brd i); cbn in *; try discriminate; reflexivity.
  Qed.

  Lemma idle_w s i : is_w s = true -> will_idle s i = beat s i && (t_len s =? 0).
  Proof.
    unfold is_w, will_idle, beat, w_go, is_w. destruct (t_vld s), (t_isw s); cbn; try discriminate. intros _.
    destruct (v_wait i), (t_len s =? 0), (v_wv i), (v_brd i); reflexivity.
  Qed.

  (** what happens to the open write *)
  Lemma w_tmp s i : quick s i -> (t_vld s = true -> t_olen s < 256 /\ t_len s <= t_olen s) ->
    (is_w s = true /\ (beat s i = false \/ t_len s <> 0) /\ acc_w s i = false /\
       is_w (fst (step s i)) = true /\ t_addr (fst (step s i)) = t_addr s /\ t_id (fst (step s i)) = t_id s /\ t_olen (fst (step s i)) = t_olen s /\
       t_len (fst (step s i)) = t_len s - b2n (beat s i)) \/
    ((is_w s = false \/ (beat s i = true /\ t_len s = 0)) /\
     is_w (fst (step s i)) = acc_w s i /\ (acc_w s i = true -> t_addr (fst (step s i)) = v_awa i /\ t_id (fst (step s i)) = v_awid i /\
       t_olen (fst (step s i)) = v_awl i /\ t_len (fst (step s i)) = v_awl i)).
  Proof.
    intros Q Hl. destruct (st_all RP DEPTH s i) as (_ & _ & Et & _ & _). rewrite (acc_new _ _ Q). unfold new_of.
    set (s' := fst (step s i)) in *.
    assert (is_w s' = (t_vld s' && t_isw s')) as Ew' by reflexivity.
    destruct (is_w s) eqn:Ew.
    - rewrite (idle_w _ i Ew). pose proof Ew as Ew2. unfold is_w in Ew2. apply andb_prop in Ew2. destruct Ew2 as [Ev Ei].
      destruct (beat s i && (t_len s =? 0)) eqn:Eb.
      + right. apply andb_prop in Eb. destruct Eb as [Eb E0]. apply Nat.eqb_eq in E0. split; [auto|].
        assert (dec_of s i = false) as Ed by (unfold dec_of, not_last_w; rewrite E0; cbn; rewrite !andb_false_r; reflexivity).
        destruct (en s i) eqn:Een.
        * destruct (en_true RP DEPTH s i Een) as (_ & _ & En). rewrite En in Et. unfold tmp_of, load_r in Et. injection Et as _ _ _ _ E5 E6.
          rewrite Ew', E5, E6. cbn [negb]. rewrite !andb_false_r. split; [reflexivity|discriminate].
        * rewrite en_false, Ed in Et. unfold new_of in Et. rewrite (idle_w _ i Ew), Eb, E0 in Et. cbn [Nat.eqb andb] in *.
          destruct (v_awv i && v_wv i).
          -- unfold tmp_of, load_w in Et. injection Et as E1 E2 E3 E4 E5 E6. rewrite Ew', E5, E6. auto.
          -- assert (tmp_ack s i = true) as Ea.
             { unfold tmp_ack. unfold beat in Eb. rewrite Ew in *. destruct (v_wait i), (v_wv i), (w_go s i); try discriminate Eb; reflexivity. }
             rewrite Ea in Et. unfold tmp_of, load_0 in Et. injection Et as E1 E2 E3 E4 E5 E6. rewrite Ew', E5, E6. split; [reflexivity|discriminate].
      + left. cbn [andb]. split; [reflexivity|]. split; [destruct (beat s i); [right; apply Nat.eqb_neq; exact Eb|left; reflexivity]|]. split; [reflexivity|].
        assert (en s i = false) as Een.
        { destruct (en s i) eqn:Een; [|reflexivity]. destruct (en_true RP DEPTH s i Een) as (H & _). rewrite (idle_w _ i Ew), Eb in H. discriminate H. }
        rewrite Een, en_false in Et. unfold new_of in Et. rewrite (idle_w _ i Ew), Eb in Et. cbn [andb] in Et.
        destruct (dec_of s i) eqn:Ed.
        * assert (beat s i = true /\ t_len s <> 0) as [Hb H0].
          { unfold dec_of, not_last_w in Ed. unfold beat, w_go. rewrite Ew in *. destruct (v_wait i), (v_wv i), (Nat.eqb_spec (t_len s) 0); try discriminate Ed. auto. }
          rewrite Hb. unfold tmp_of, load_dec in Et. injection Et as E1 E2 E3 E4 E5 E6. rewrite Ew', E1, E2, E3, E4, E5, E6, Ev, Ei. cbn [b2n].
          destruct (Hl Ev). rewrite wdec_pos by (change (2 ^ 8) with 256; lia). auto.
        * assert (beat s i = false) as Hb.
          { destruct (beat s i) eqn:Hb; [|reflexivity]. exfalso. cbn [andb] in Eb. unfold beat in Hb. unfold dec_of, not_last_w in Ed. rewrite Ew, Eb in *.
            destruct (v_wait i), (v_wv i); cbn in *; try discriminate; rewrite ?andb_false_r in *; discriminate. }
          assert (tmp_ack s i = false) as Ea.
          { unfold tmp_ack. unfold beat in Hb. rewrite Ew in *. destruct (v_wait i), (v_wv i), (w_go s i); try discriminate Hb; reflexivity. }
          rewrite Ea in Et. unfold tmp_of in Et. injection Et as E1 E2 E3 E4 E5 E6. rewrite Ew', E1, E2, E3, E4, E5, E6, Ev, Ei, Hb. cbn [b2n].
          rewrite Nat.sub_0_r. auto.
    - right. split; [auto|].
      assert (dec_of s i = false) as Ed by (unfold dec_of, not_last_w; rewrite Ew; cbn; rewrite !andb_false_r; reflexivity).
      destruct (en s i) eqn:Een.
      + destruct (en_true RP DEPTH s i Een) as (_ & _ & En). rewrite En in Et. unfold tmp_of, load_r in Et. injection Et as _ _ _ _ E5 E6.
        rewrite Ew', E5, E6. cbn [negb]. rewrite !andb_false_r. split; [reflexivity|discriminate].
      + rewrite en_false, Ed in Et. unfold new_of in Et. rewrite andb_true_r. destruct (will_idle s i && v_awv i && v_wv i).
        * unfold tmp_of, load_w in Et. injection Et as E1 E2 E3 E4 E5 E6. rewrite Ew', E5, E6. auto.
        * split; [|discriminate]. rewrite Ew'. unfold is_w in Ew. destruct (tmp_ack s i).
          -- unfold tmp_of, load_0 in Et. injection Et as E1 E2 E3 E4 E5 E6. rewrite E6. reflexivity.
          -- unfold tmp_of in Et. injection Et as E1 E2 E3 E4 E5 E6. rewrite E5, E6. exact Ew.
  Qed.

  Definition part (s : St) : nat := if is_w s then t_olen s - t_len s else 0.
  Record WI (s : St) (t : list cyc) (done : list (AD * ID * nat)) : Prop := {
    wi_aw : aws t = done ++ cur s;
    wi_beat : map fst (beats t) = flat_map burst done ++ repeat (t_addr s, t_olen s + 1) (part s);
    wi_dat : map snd (beats t) = map fst (ws t);
    wi_last : last_ok t -> map snd (ws t) = flat_map lasts done ++ repeat false (part s) /\ bs t = map id_of done }.

  Lemma burst_lasts (l : list (AD * ID * nat)) : length (flat_map burst l) = length (flat_map lasts l).
  Proof.
    induction l as [|[[x d] n] l IH]; [reflexivity|]. cbn [flat_map]. rewrite !app_length, IH. unfold burst, lasts.
    rewrite app_length, !repeat_length. reflexivity.
  Qed.
  Lemma prefix_cut {X} (a b w z : list X) : a ++ b = w ++ z -> length w <= length a -> exists z', a = w ++ z'.
  Proof.
    intros E H. exists (skipn (length w) a). rewrite <- (firstn_skipn (length w) a) at 1. f_equal.
    apply (f_equal (firstn (length w))) in E. rewrite !firstn_app in E. replace (length w - length a) with 0 in E by lia.
    rewrite firstn_all, Nat.sub_diag, !app_nil_r in E. exact E.
  Qed.
  Lemma repeat_snoc {X} (x : X) n : repeat x n ++ [x] = repeat x (n + 1).
  Proof. rewrite repeat_app. reflexivity. Qed.

  Lemma wi_step s t done i : quick s i -> (t_vld s = true -> t_olen s < 256 /\ t_len s <= t_olen s) -> v_awl i < 256 -> WI s t done ->
    exists done', WI (fst (step s i)) (t ++ [(i, snd (step s i))]) done'.
  Proof.
    intros Q Hl L2 [W1 W2 W3 W4]. set (c := (i, snd (step s i))).
    destruct (out_all RP DEPTH s i) as (_ & Oaw & Owr & _ & _ & _ & _ & Obv & Obid & Oad & Obu & _ & Ow & Owd & Ows).
    assert (aws (t ++ [c]) = aws t ++ (if acc_w s i then [(v_awa i, v_awid i, v_awl i)] else [])) as Eaw.
    { unfold aws. rewrite evs_snoc. unfold c. cbn [fst snd]. rewrite Oaw. reflexivity. }
    assert (ws (t ++ [c]) = ws t ++ (if beat s i then [(v_wd i, v_ws i, v_wl i)] else [])) as Ews.
    { unfold ws. rewrite evs_snoc. unfold c. cbn [fst snd]. rewrite Owr. unfold beat. destruct (v_wv i), (v_wait i), (is_w s), (w_go s i); reflexivity. }
    assert (beats (t ++ [c]) = beats t ++ (if beat s i then [(t_addr s, t_olen s + 1, (v_wd i, v_ws i))] else [])) as Ebe.
    { unfold beats. rewrite evs_snoc. unfold c. cbn [fst snd]. rewrite Oad, Obu, Ow, Owd, Ows. fold (beat s i).
      destruct (beat s i) eqn:Eb; [|reflexivity]. rewrite (burst_ok s); [reflexivity|intros E; destruct (Hl E); assumption|].
      unfold beat, is_w in Eb. destruct (t_vld s); [reflexivity|discriminate Eb]. }
    assert (bs (t ++ [c]) = bs t ++ (if beat s i && v_wl i && v_brd i then [t_id s] else [])) as Ebs.
    { unfold bs. rewrite evs_snoc. unfold c. cbn [fst snd]. rewrite Obv, Obid. unfold beat.
      destruct (v_wv i), (v_wait i), (is_w s), (w_go s i), (v_wl i), (v_brd i); reflexivity. }
    assert (length (map snd (ws t)) <= length (flat_map lasts (aws t))) as Hlen.
    { pose proof (f_equal (@length _) W2) as E2. pose proof (f_equal (@length _) W3) as E3. rewrite !map_length in *. rewrite app_length, repeat_length in E2.
      rewrite W1, flat_map_app, app_length, <- !burst_lasts. rewrite E3 in E2. rewrite E2. unfold part, cur.
      destruct (is_w s); [|lia]. cbn [flat_map]. unfold burst at 3. rewrite app_nil_r, repeat_length. lia. }
    assert (last_ok (t ++ [c]) -> last_ok t) as Hlo.
    { intros [z Hz]. unfold last_ok. rewrite Eaw, Ews, flat_map_app, map_app, <- app_assoc in Hz. exact (prefix_cut _ _ _ _ Hz Hlen). }
    assert (beat s i = true -> is_w s = true) as Hbw by (unfold beat; destruct (is_w s); [reflexivity|discriminate]).
    (* last of an accepted word *)
    assert (last_ok (t ++ [c]) -> beat s i = true -> v_wl i = (t_len s =? 0)) as Hlast.
    { intros Ho Hb. destruct (W4 (Hlo Ho)) as [W5 _]. destruct Ho as [z Hz]. rewrite Eaw, Ews, Hb, W1, !flat_map_app, map_app, W5, <- !app_assoc in Hz.
      apply app_inv_head in Hz. unfold cur, part in Hz. rewrite (Hbw Hb) in Hz. cbn [flat_map lasts map snd] in Hz. rewrite app_nil_r in Hz.
      specialize (Hbw Hb). unfold is_w in Hbw. apply andb_prop in Hbw. destruct (Hl (proj1 Hbw)) as [_ Hle].
      replace (t_olen s) with ((t_olen s - t_len s) + t_len s) in Hz at 1 by lia. rewrite repeat_app, <- !app_assoc in Hz. apply app_inv_head in Hz.
      destruct (t_len s); cbn in Hz; injection Hz as E _; symmetry; exact E. }
    destruct (w_tmp s i Q Hl) as [(Hw & Hor & Ha & Hw' & E1 & E2 & E3 & E4)|(Hor & Hw' & Hload)].
    - exists done. assert (part (fst (step s i)) = part s + b2n (beat s i)) as Ep.
      { unfold part. rewrite Hw, Hw', E3, E4. unfold is_w in Hw. apply andb_prop in Hw. destruct (Hl (proj1 Hw)). destruct (beat s i); cbn [b2n]; [|lia].
        destruct Hor; [discriminate|lia]. }
      constructor.
      + rewrite Eaw, Ha, app_nil_r, W1. unfold cur. rewrite Hw, Hw', E1, E2, E3. reflexivity.
      + rewrite Ebe, map_app, W2, Ep, E1, E3, <- app_assoc. f_equal. destruct (beat s i); cbn [b2n map fst]; [apply repeat_snoc|].
        rewrite app_nil_r, Nat.add_0_r. reflexivity.
      + rewrite Ebe, Ews, !map_app, W3. destruct (beat s i); reflexivity.
      + intros Ho. destruct (W4 (Hlo Ho)) as [W5 W6]. specialize (Hlast Ho). rewrite Ews, Ebs, map_app, W5, W6, Ep, <- app_assoc.
        destruct (beat s i) eqn:Eb; cbn [b2n andb map snd].
        * rewrite (Hlast eq_refl). destruct Hor as [H|H]; [discriminate H|]. rewrite (proj2 (Nat.eqb_neq _ _) H). cbn [andb]. rewrite app_nil_r, repeat_snoc. auto.
        * rewrite !app_nil_r, Nat.add_0_r. auto.
    - assert (cur (fst (step s i)) = (if acc_w s i then [(v_awa i, v_awid i, v_awl i)] else []) /\ part (fst (step s i)) = 0) as [Ec Ep].
      { unfold cur, part. rewrite Hw'. destruct (acc_w s i); [|auto]. destruct (Hload eq_refl) as (-> & -> & -> & ->). split; [reflexivity|lia]. }
      exists (done ++ cur s). assert (beat s i = is_w s) as Hb.
      { destruct Hor as [H|[H H0]]; [|rewrite H; symmetry; auto]. unfold beat. rewrite H. reflexivity. }
      assert (is_w s = true -> t_len s = 0) as H0 by (intros H; destruct Hor as [E|[_ E]]; [congruence|exact E]).
      constructor.
      + rewrite Eaw, Ec, W1. reflexivity.
      + rewrite Ebe, Hb, map_app, W2, Ep, flat_map_app, <- !app_assoc. f_equal. cbn [repeat]. rewrite app_nil_r. unfold part, cur.
        destruct (is_w s); [|reflexivity]. rewrite H0 by reflexivity. cbn [flat_map burst map fst]. rewrite Nat.sub_0_r, app_nil_r. apply repeat_snoc.
      + rewrite Ebe, Ews, !map_app, W3. destruct (beat s i); reflexivity.
      + intros Ho. destruct (W4 (Hlo Ho)) as [W5 W6]. specialize (Hlast Ho). rewrite Ews, Ebs, map_app, W5, W6, Ep, flat_map_app, map_app, <- !app_assoc, Hb.
        cbn [repeat]. rewrite app_nil_r. rewrite Hb in Hlast. unfold part, cur. destruct (is_w s) eqn:Ew; [|auto].
        rewrite (Hlast eq_refl), (H0 eq_refl). cbn [flat_map lasts map snd id_of fst andb Nat.eqb]. rewrite Nat.sub_0_r, app_nil_r. split; [reflexivity|].
        assert (v_brd i = true) as ->; [|reflexivity]. unfold beat, w_go in Hb. rewrite (H0 eq_refl) in Hb. cbn in Hb. destruct (v_brd i); [reflexivity|].
        rewrite !andb_false_r in Hb. discriminate Hb.
  Qed.
End Writes.
