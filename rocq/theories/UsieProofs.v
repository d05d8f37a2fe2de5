From Verif Require Import Base BaseFacts UsieModel UsieSpec.

Section P.
  Context {D : Type}.
  Notation rstep := (@ur_step D).
  Notation xstep := (@ux_step D).

  (** [cur] is in the first item *)
  Definition item_is (t : ur_item D) (cur : option (D * bool)) : Prop :=
    match cur with
    | Some (d, e) => t = mk_uit (Some d) e true true
    | None => ut_valid t = false
    end.
  Definition now (s : ur_st D) : list (option D * bool * bool) := rx_given [ur_o s].

  Lemma given_cons o (os : list (ur_out D)) : rx_given (o :: os) = rx_given [o] ++ rx_given os.
  Proof. unfold rx_given. cbn [flat_map]. rewrite app_nil_r. reflexivity. Qed.

  Lemma rx_words_eq js x : forall s cur, item_is (u0 s) cur -> no_gap js ->
    (forall i js', js = i :: js' -> cur <> None -> ui_active i = true -> ui_valid i = true) ->
    rx_given (outs rstep s (js ++ [x])) = now s ++ rx_words cur js.
  Proof.
    induction js as [|i js IH]; intros s cur HI HG HC.
    - cbn [app rx_words]. rewrite app_nil_r. reflexivity.
    - cbn [app]. rewrite outs_cons, given_cons. cbn [ur_step snd fst]. fold (now s). f_equal.
      specialize (HC i js eq_refl).
      assert (HG' : no_gap js) by (destruct js; [exact I|apply HG]).
      set (cur' := if ui_active i then if ui_valid i then Some (ui_data i, ui_error i) else cur else None).
      rewrite (IH _ cur'); [| |exact HG'|].
      + unfold cur'. cbn [rx_words]. unfold now, rx_given, ur_o. cbn [flat_map u0 u1 uo_vld uo_data uo_error uo_last]. unfold ur_load.
        destruct (ui_active i) eqn:Ea; [destruct (ui_valid i) eqn:Ev|]; cbn [ut_valid ut_active ut_data ut_error negb andb orb].
        * destruct cur as [[d e]|]; cbn [item_is] in HI; [rewrite HI; reflexivity|]. rewrite HI. reflexivity.
        * destruct cur as [[d e]|]; [specialize (HC ltac:(discriminate) eq_refl); discriminate|]. cbn [item_is] in HI. rewrite HI. reflexivity.
        * destruct cur as [[d e]|]; cbn [item_is] in HI; [rewrite HI; reflexivity|]. rewrite HI. reflexivity.
      + cbn [u0]. unfold cur', ur_load. destruct (ui_active i); [destruct (ui_valid i)|]; cbn [item_is ut_valid]; try reflexivity.
        destruct cur as [[d e]|]; cbn [item_is] in *; [rewrite HI; reflexivity|exact HI].
      + intros i' js' -> Hn Ha. cbn [no_gap] in HG. destruct HG as [HG _]. unfold cur' in Hn.
        destruct (ui_active i) eqn:Ea; [|congruence]. destruct (ui_valid i) eqn:Ev; [exact (HG eq_refl eq_refl Ha)|].
        specialize (HC Hn eq_refl). discriminate.
  Qed.

  Lemma c149 d d' e e' js x : no_gap js -> rx_given (outs rstep (ur_init d d' e e') (js ++ [x])) = rx_words None js.
  Proof. intros H. rewrite (rx_words_eq js x _ None); [reflexivity|reflexivity|exact H|]. intros i js' _ X. congruence. Qed.

  (** * transmission *)
  Lemma tx_order is : forall s, tx_given (trace xstep s is) = map fst (tx_taken (trace xstep s is)).
  Proof.
    induction is as [|i is IH]; intros s; [reflexivity|]. rewrite trace_cons. unfold tx_given, tx_taken in *. cbn [flat_map fst snd ux_step].
    destruct i as [v d l r]. cbn [xi_valid xi_data xi_last xi_rd xo_ready xo_vld xo_data].
    destruct v, r, s; cbn [andb negb app map fst]; rewrite IH; reflexivity.
  Qed.


  Lemma tx_sep is c : is_idle c -> forall s pk cur, pk <> [] \/ s = false ->
    tx_continuous (match cur with [] => false | _ => true end) (trace xstep s (is ++ [c])) ->
    (s = true -> cur = []) -> (s = false -> pk = cur) ->
    tx_packets pk (trace xstep s (is ++ [c])) = (if s then [pk] else []) ++ tx_frames cur (tx_taken (trace xstep s (is ++ [c]))).
  Proof.
    intros [Hr Hv]. induction is as [|i is IH]; intros s pk cur Hp HC H1 H2.
    - cbn [app] in *. rewrite trace_cons in *. rewrite trace_nil in *. cbn [tx_packets tx_continuous fst snd ux_step xo_vld xo_ready] in *.
      unfold tx_taken. cbn [flat_map fst snd xo_ready]. rewrite Hr, Hv in *. cbn [andb negb app tx_frames].
      destruct HC as [HC _]. destruct cur as [|a cur]; [|specialize (HC eq_refl); discriminate].
      destruct s.
      + destruct Hp as [Hp|Hp]; [|discriminate]. destruct pk; [congruence|reflexivity].
      + rewrite (H2 eq_refl). reflexivity.
    - cbn [app] in *. rewrite trace_cons in *. cbn [tx_continuous fst snd] in HC. destruct HC as [HC HC'].
      unfold tx_taken. cbn [tx_packets flat_map fst snd]. fold (tx_taken (trace xstep (fst (xstep s i)) (is ++ [c]))).
      cbn [ux_step fst snd xo_vld xo_ready xo_data] in *.
      destruct i as [v d l r]. cbn [xi_valid xi_data xi_last xi_rd] in *.
      destruct s.
      + rewrite (H1 eq_refl) in *. destruct Hp as [Hp|Hp]; [|discriminate].
        rewrite !andb_false_r in *. cbn [app]. destruct r; cbn [andb].
        * destruct pk as [|a pk]; [congruence|]. f_equal. rewrite (IH false [] []); [reflexivity|right; reflexivity|exact HC'|discriminate|reflexivity].
        * rewrite !andb_false_r. cbn [andb] in *. rewrite !andb_false_r in HC'. rewrite (IH true pk []); [reflexivity|left; exact Hp|exact HC'|reflexivity|discriminate].
      + pose proof (H2 eq_refl) as ->. cbn [negb] in *. rewrite !andb_true_r in *. cbn [andb app] in *.
        destruct r; rewrite ?andb_true_r, ?andb_false_r in *.
        * destruct v; cbn [andb app tx_frames] in *.
          -- destruct l; cbn [negb] in *.
             ++ rewrite (IH true (cur ++ [d]) []); [reflexivity|left; intro X; apply app_eq_nil in X; destruct X; discriminate|exact HC'|reflexivity|discriminate].
             ++ rewrite (IH false (cur ++ [d]) (cur ++ [d])); [reflexivity|right; reflexivity| |discriminate|reflexivity].
                destruct (cur ++ [d]) eqn:E; [apply app_eq_nil in E; destruct E; discriminate|exact HC'].
          -- destruct cur as [|a cur]; [|specialize (HC eq_refl); discriminate].
             rewrite (IH false [] []); [reflexivity|right; reflexivity|exact HC'|discriminate|reflexivity].
        * cbn [app]. rewrite (IH false cur cur); [reflexivity|right; reflexivity|exact HC'|discriminate|reflexivity].
  Qed.

  Lemma c150_packets is c : is_idle c -> tx_continuous false (trace xstep false (is ++ [c])) ->
    tx_packets [] (trace xstep false (is ++ [c])) = tx_frames [] (tx_taken (trace xstep false (is ++ [c]))).
  Proof. intros H1 H2. rewrite (tx_sep is c H1 false [] []); [reflexivity|right; reflexivity|exact H2|discriminate|reflexivity]. Qed.
End P.
