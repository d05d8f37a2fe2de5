From Verif Require Import Base BaseFacts EpModel EpSpec EpProofs.

Section Axi.
  Variable c : epcfg.
  Hypothesis Hc : cfg_ok c.
  Notation NB := (length (e_brams c)).
  Notation rd_mem sm a := (match mem_at c a with Some (k, y) => Some (map Some (sm k y)) | None => @None xbits end).
  Definition w_inv (s : al_st) (p : lsp) : Prop :=
    match al_w s with
    | WIdle => ls_a p = None /\ ls_b p = None
    | WData => ls_a p = Some (al_aw s) /\ ls_b p = None /\ al_aw s < 2 ^ e_aw c
    | WResp => ls_a p = None /\ ls_b p = Some (al_aw s)
    end.
  Definition r_inv (s : al_st) (p : lsp) (t : list (al_in * al_out)) : Prop :=
    match al_r s with
    | RIdle => ls_r p = None
    | RBram => exists e, ls_r p = Some (al_ar s, e) /\
        match e with
        | Some u => exists v, u = map Some v /\ al_ix s < NB /\ m_dout (al_m s) (al_ix s) = Some v /\
            match t with y :: t' => l_w y = false /\ match t' with z :: _ => li_r (fst z) = true | [] => True end | [] => True end
        | None => True
        end
    | RData => exists e, ls_r p = Some (al_ar s, e) /\
        match e with Some v => NB <> 0 /\ xdata c (al_rd s) = v /\ match t with z :: _ => li_r (fst z) = true | [] => True end | None => True end
    end.
  Lemma al_run mr is : forall s p, rep c (al_m s) (ls_m p) -> w_inv s p -> r_inv s p (trace (al_step c) s is) ->
    Forall (fun i => li_aw i < 2 ^ e_aw c /\ li_ar i < 2 ^ e_aw c /\ din_ok c (li_din i)) is -> (mr = true -> l_calm c (trace (al_step c) s is)) -> l_law c mr p (trace (al_step c) s is).
  Proof.
    induction is as [|i is IH]; intros s p Hr Hw Hrd HF Hcalm; [exact I|]. pose proof (Forall_inv_tail HF) as HF'. apply Forall_inv in HF. destruct HF as [Haw [Har Hd]]. rewrite trace_cons in *. cbn [l_calm l_law] in *.
    set (x := (i, snd (al_step c s i))) in *.
    assert (l_w x = li_wv i && match al_w s with WData => true | _ => false end) as Elw by reflexivity.
    assert (match ls_a p with Some a => if l_w x then Some (a, li_w (fst x)) else None | None => None end = if l_w x then Some (al_aw s, li_w i) else None) as Ew.
    { unfold w_inv in Hw. rewrite Elw. destruct (al_w s); destruct Hw as [-> _]; [rewrite andb_false_r; reflexivity| |rewrite andb_false_r; reflexivity].
      destruct (li_wv i); reflexivity. }
    split; [|split].
    - unfold l_cycle. split; [|split; [|split; [|split; [|split]]]].
      + unfold w_inv in Hw. cbn [x snd al_step lo_aw]. destruct (al_w s); [destruct Hw as [-> ->]|destruct Hw as [-> [-> _]]|destruct Hw as [-> ->]]; reflexivity.
      + unfold w_inv in Hw. cbn [x snd al_step lo_w]. destruct (al_w s); destruct Hw as [-> _]; reflexivity.
      + rewrite Elw. unfold r_inv in Hrd. cbn [x snd al_step lo_ar]. destruct (al_r s); [rewrite Hrd|destruct Hrd as [v [-> _]]|destruct Hrd as [e [-> _]]]; reflexivity.
      + unfold w_inv in Hw. cbn [x snd al_step lo_b]. destruct (al_w s); [destruct Hw as [_ ->]|destruct Hw as [_ [-> _]]|destruct Hw as [_ ->]]; reflexivity.
      + unfold r_inv in Hrd. cbn [x fst snd al_step lo_r]. destruct (al_r s); [exact I|exact I|]. destruct Hrd as [e [E1 E2]]. exists (al_ar s), e. split; [exact E1|]. split; [reflexivity|].
        rewrite (read_ok c Hc _ _ Hd). destruct (reg_word c (al_ar s)); [reflexivity|]. destruct e as [v|]; [|exact I]. destruct E2 as [E2 [E3 _]]. cbn [agrees].
        destruct (e_brams c); [cbn in E2; lia|exact E3].
      + rewrite Ew. cbn [x snd al_step lo_dout]. rewrite Elw. apply (fields_ok c Hc).
    - intros Hm. destruct is as [|j is']; [exact I|]. rewrite trace_cons. cbn [snd]. assert (al_r (fst (al_step c s i)) = RData) as Q.
      { unfold l_must in Hm. unfold r_inv in Hrd. cbn [al_step fst al_r]. rewrite <- Elw. unfold l_ar in Hm. rewrite Elw in Hm. cbn [x fst snd al_step lo_r lo_ar] in Hm. rewrite <- Elw in Hm. destruct (al_r s).
        - rewrite Hrd in Hm. pose proof (hits c Hc (li_ar i) Har) as Hx. rewrite exists_find. destruct (mem_at c (li_ar i)) as [[k y]|]; [rewrite andb_false_r in Hm; discriminate|].
          cbn [andb] in Hm. rewrite andb_true_r in Hm. apply andb_prop in Hm as [-> ->]. destruct (find _ _) as [k|] eqn:Ef; [|reflexivity].
          apply find_some in Ef as [Ef1 Ef2]. apply in_seq in Ef1. destruct Hx as [Hx1 _]. specialize (Hx1 k). rewrite Hx1 in Ef2 by lia. discriminate Ef2.
        - destruct Hrd as [e [E1 _]]. rewrite E1 in Hm. rewrite Hm. reflexivity.
        - destruct Hrd as [e [E1 _]]. rewrite E1 in Hm. destruct (li_r i); [discriminate|reflexivity]. }
      cbn [al_step snd lo_r] in *. rewrite Q. discriminate.
    - apply IH; [| | |exact HF'|intros Q; apply (Hcalm Q)].
      + cbn [l_next ls_m]. replace (match ls_a p with Some a => if l_w x then wr_mem c (ls_m p) a (li_w (fst x)) else ls_m p | None => ls_m p end) with
          (if l_w x then wr_mem c (ls_m p) (al_aw s) (li_w i) else ls_m p).
        2:{ destruct (ls_a p) as [a|]; [|destruct (l_w x); [discriminate Ew|reflexivity]]. destruct (l_w x); [|reflexivity]. injection Ew as ->. reflexivity. }
        cbn [al_step fst al_m]. apply (rep_step c Hc) with (h := fun k => ar_hit c (bram c k) (al_aw s)); [exact Hr| |left; reflexivity| |]; rewrite ?Elw.
        * intros Q. unfold w_inv in Hw. destruct (al_w s); try (rewrite andb_false_r in Q; discriminate). apply Hw.
        * intros k _. cbn [mp_en mp_we]. destruct (li_wv i && _), (ar_hit c (bram c k) (al_aw s)); cbn [andb]; rewrite ?orb_true_r, ?andb_false_r; reflexivity.
        * intros k _ Q. cbn [mp_addr mp_din]. rewrite Q. split; reflexivity.
      + unfold w_inv in *. cbn [l_next ls_a ls_b]. unfold l_aw. rewrite Elw. cbn [x fst snd al_step al_w al_aw lo_aw lo_b]. destruct (al_w s).
        * destruct Hw as [-> ->]. rewrite andb_false_r, andb_true_r. cbn [andb]. destruct (li_awv i); [|split; [reflexivity|destruct (li_b i); reflexivity]].
          split; [reflexivity|]. split; [destruct (li_b i); reflexivity|exact Haw].
        * destruct Hw as [-> [-> Hlt]]. rewrite andb_false_r, andb_true_r. cbn [andb]. destruct (li_wv i); [split; reflexivity|]. split; [reflexivity|]. split; [destruct (li_b i); reflexivity|exact Hlt].
        * destruct Hw as [-> ->]. rewrite !andb_false_r. cbn [andb]. destruct (li_b i); split; reflexivity.
      + unfold r_inv in *. set (t' := trace (al_step c) (fst (al_step c s i)) is) in *.
        assert (l_ar x = li_arv i && (match al_r s with RIdle => true | _ => false end && negb (l_w x))) as Elar by reflexivity.
        cbn [l_next ls_r]. rewrite Elar. cbn [al_step fst al_r al_ar al_ix al_rd al_m]. rewrite <- Elw.
        destruct (al_r s) eqn:Er.
        * rewrite exists_find. destruct (find (fun k => ar_hit c (bram c k) (li_ar i)) (brams c)) as [k0|] eqn:Ef.
          -- destruct (li_arv i); cbn [andb negb]; [|rewrite Hrd; destruct (li_r (fst x)); [|reflexivity]; cbn [x snd al_step lo_r]; rewrite Er; reflexivity].
             destruct (l_w x) eqn:Eww; cbn [negb]; [rewrite Hrd; destruct (li_r (fst x)); [|reflexivity]; cbn [x snd al_step lo_r]; rewrite Er; reflexivity|].
             match goal with |- context [mems_step _ ?p] => set (port := p) end.
             pose proof (rd_step c Hc (al_m s) (ls_m p) port (li_ar i) (fun k => ar_hit c (bram c k) (li_ar i)) true Hr Har eq_refl (or_introl eq_refl)) as Hx.
             rewrite Ef in Hx. destruct Hx as [Hk [y [Em Ed]]];
               [intros k _ Hh; unfold port; cbn [mp_en mp_addr andb]; rewrite Hh; split; reflexivity|].
             cbn [x fst]. rewrite Em. destruct mr; [|exists None; split; [reflexivity|exact I]]. exists (Some (map Some (ls_m p k0 y))). split; [reflexivity|]. exists (ls_m p k0 y).
             split; [reflexivity|]. split; [exact Hk|]. split; [exact Ed|]. destruct (Hcalm eq_refl) as [Hc1 _]. unfold l_mem_read in Hc1. rewrite Elar in Hc1.
             cbn [x fst andb negb] in Hc1. rewrite Em in Hc1. apply (Hc1 eq_refl).
          -- destruct (li_arv i); cbn [andb negb]; [|rewrite Hrd; destruct (li_r (fst x)); [|reflexivity]; cbn [x snd al_step lo_r]; rewrite Er; reflexivity].
             destruct (l_w x) eqn:Eww; cbn [negb]; [rewrite Hrd; destruct (li_r (fst x)); [|reflexivity]; cbn [x snd al_step lo_r]; rewrite Er; reflexivity|].
             pose proof (hits c Hc (li_ar i) Har) as Hx. cbn [x fst]. destruct (mem_at c (li_ar i)) as [[k y]|].
             { destruct Hx as [Hk [Hx _]]. pose proof (find_none _ _ Ef k) as Q. cbn beta in Q. rewrite Hx, Nat.eqb_refl in Q by exact Hk. discriminate Q. apply in_seq. lia. }
             exists None. split; [reflexivity|exact I].
        * destruct Hrd as [e [E1 E2]]. rewrite andb_false_l, andb_false_r. assert ((if li_r (fst x) then match lo_r (snd x) with Some _ => None | None => ls_r p end else ls_r p) = Some (al_ar s, e)) as ->.
          { rewrite E1. destruct (li_r (fst x)); [|reflexivity]. cbn [x snd al_step lo_r]. rewrite Er. reflexivity. }
          cbn [andb]. rewrite ?andb_false_r. destruct e as [u|].
          -- destruct E2 as [v [-> [E2 [E3 [E5 E6]]]]]. rewrite E5. cbn [negb]. exists (Some (map Some v)). split; [reflexivity|].
             split; [lia|]. rewrite (proj2 (Nat.ltb_lt _ _) E2), E3. split; [reflexivity|]. exact E6.
          -- destruct (l_w x); cbn [negb]; exists None; split; try reflexivity; exact I.
        * destruct Hrd as [e [E1 E2]]. cbn [andb]. rewrite !andb_false_r. cbn [x fst]. destruct (li_r i) eqn:Erd.
          -- cbn [x snd al_step lo_r]. rewrite Er. reflexivity.
          -- rewrite E1. exists e. split; [reflexivity|]. destruct e as [v|]; [|exact I]. destruct E2 as [_ [_ E2]]. cbn [x fst] in E2. congruence.
  Qed.
End Axi.
