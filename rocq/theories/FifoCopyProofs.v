From Verif Require Import Base BaseFacts FifoModel FifoProofs HsRegModel FifoCopyModel FifoCopySpec.

Lemma mod_inj D j k : 0 < D -> j <= k -> k < j + D -> k mod D = j mod D -> k = j.
Proof.
  intros HD Hjk Hk E.
  pose proof (Nat.div_mod_eq j D) as Ej. pose proof (Nat.div_mod_eq k D) as Ek. rewrite E in Ek.
  set (x := j mod D) in *. set (qj := j / D) in *. set (qk := k / D) in *. clearbody x qj qk. clear E.
  assert (qj = qk) by nia. nia.
Qed.
Lemma ptr_inc_mod D k : 0 < D -> ptr_inc D (k mod D) = (k + 1) mod D.
Proof.
  intros HD. pose proof (Nat.mod_upper_bound k D ltac:(lia)) as Hb.
  rewrite (ptr_inc_eq D HD) by assumption.
  destruct (Nat.eqb_spec (k mod D) (D - 1)) as [e|e].
  - rewrite <- Nat.add_mod_idemp_l by lia. rewrite e. replace (D - 1 + 1) with D by lia. now rewrite Nat.mod_same by lia.
  - rewrite <- Nat.add_mod_idemp_l by lia. rewrite (Nat.mod_small (k mod D + 1)); [reflexivity|lia].
Qed.

Section Inner.
  Context {A : Type}.
  Variable D : nat.
  Hypothesis HD : 1 < D.

  (** the state holds the accepted words from [m] on; [p] is the next one to read *)
  Record CRep (s : fc_st A) (acc : list A) (m p : nat) : Prop := {
    cr_wr : fc_wr s = length acc mod D;
    cr_tmp : fc_tmp s = p mod D;
    cr_rd : fc_rd s = m mod D;
    cr_mp : m <= p <= length acc;
    cr_cap : length acc - m <= D - 1;
    cr_mem : forall k, m <= k < length acc -> nth_error acc k = Some (fc_mem s (k mod D)) }.

  Lemma crep_init m0 d0 : CRep (fc_init m0 d0) [] 0 0.
  Proof. constructor; cbn; try lia. all: symmetry; apply Nat.mod_0_l; lia. Qed.

  Lemma crep_wwait s acc m p : CRep s acc m p -> fc_wwait D s = (length acc - m =? D - 1).
  Proof.
    intros [Hw Ht Hr Hmp Hc Hm]. unfold fc_wwait. rewrite Hw, ptr_inc_mod, Hr by lia.
    destruct (Nat.eqb_spec (length acc - m) (D - 1)) as [e|e].
    - replace (length acc + 1) with (m + 1 * D) by lia. rewrite Nat.mod_add by lia. apply Nat.eqb_refl.
    - apply Nat.eqb_neq. intros E. apply mod_inj in E; lia.
  Qed.
  Lemma crep_rwait s acc m p : CRep s acc m p -> (fc_wr s =? fc_tmp s) = (p =? length acc).
  Proof.
    intros [Hw Ht Hr Hmp Hc Hm]. rewrite Hw, Ht.
    destruct (Nat.eqb_spec p (length acc)) as [->|e]; [apply Nat.eqb_refl|].
    apply Nat.eqb_neq. intros E. apply mod_inj in E; lia.
  Qed.

  (** one step; [copy] only if the frame is not empty *)
  Lemma crep_step s acc m p (i : fc_in A) : CRep s acc m p ->
    let copy := fi_cvld i && fi_cdata i in
    let mark := fi_cvld i && negb (fi_cdata i) in
    let rdok := fi_ren i && negb (fc_rwait s copy) in
    (rdok && copy = true -> m < length acc) ->
    let s' := fst (fc_step D s i) in
    let o := snd (fc_step D s i) in
    let acc' := acc ++ opt_list (fi_wen i && negb (fc_wwait D s)) (fi_data i) in
    let m' := if mark then p else m in
    let p' := if rdok then (if copy then m + 1 else p + 1) else p in
    CRep s' acc' m' p' /\
    (rdok = true -> nth_error acc (if copy then m else p) = Some (fc_dout s') /\ fo_data o = fc_dout s').
  Proof.
    intros R copy mark rdok Hne s' o acc' m' p'.
    pose proof (crep_wwait _ _ _ _ R) as Ew. pose proof (crep_rwait _ _ _ _ R) as Er.
    assert (Hrd : fi_ren i && (negb (fc_wr s =? fc_tmp s) || copy) = rdok).
    { unfold rdok, fc_rwait. fold copy. destruct copy, (fc_wr s =? fc_tmp s), (fi_ren i); reflexivity. }
    assert (Hrange : rdok = true -> (if copy then m else p) < length acc).
    { intros E. destruct copy eqn:Ec.
      - apply Hne. now rewrite E.
      - unfold rdok, fc_rwait in E. rewrite Er in E.
        destruct (Nat.eqb_spec p (length acc)); [now rewrite andb_false_r in E|]. destruct R. lia. }
    assert (Hp' : m' <= p' <= length acc).
    { unfold m', p', mark. destruct R as [_ _ _ Hmp _ _].
      destruct rdok eqn:E; [specialize (Hrange eq_refl)|].
      - destruct copy eqn:Ec; [|destruct (fi_cvld i && negb (fi_cdata i)); lia].
        unfold copy in Ec. apply andb_true_iff in Ec as [-> ->]. cbn [negb andb]. lia.
      - destruct (fi_cvld i && negb (fi_cdata i)); lia. }
    assert (Hm' : m <= m') by (unfold m'; destruct R as [_ _ _ Hmp _ _]; destruct mark; lia).
    destruct R as [Hw Ht Hr Hmp Hc Hm].
    assert (Hwr : fi_wen i && negb (ptr_inc D (fc_wr s) =? fc_rd s) = fi_wen i && negb (length acc - m =? D - 1)).
    { unfold fc_wwait in Ew. now rewrite Ew. }
    assert (Hacc' : acc' = acc ++ opt_list (fi_wen i && negb (length acc - m =? D - 1)) (fi_data i)).
    { unfold acc'. now rewrite Ew. }
    split.
    - constructor; unfold s', fc_step; cbv zeta; fold copy; rewrite ?Hrd, ?Hwr;
        cbn [fst fc_wr fc_tmp fc_rd fc_mem fc_dout].
      + rewrite Hacc'. destruct (fi_wen i && negb (length acc - m =? D - 1)); cbn [opt_list].
        * rewrite app_length, Hw, ptr_inc_mod by lia. reflexivity.
        * rewrite app_nil_r. exact Hw.
      + unfold p'. destruct rdok, copy; rewrite ?Hr, ?Ht, ?ptr_inc_mod by lia; reflexivity.
      + unfold m', mark. destruct (fi_cvld i && negb (fi_cdata i)); assumption.
      + rewrite Hacc', app_length. lia.
      + rewrite Hacc', app_length. destruct (fi_wen i), (Nat.eqb_spec (length acc - m) (D - 1)); cbn; lia.
      + intros k Hk. rewrite Hacc' in Hk |- *.
        destruct (fi_wen i && negb (length acc - m =? D - 1)) eqn:Ewr; cbn [opt_list] in *.
        * rewrite app_length in Hk; cbn [length] in Hk.
          destruct (Nat.eq_dec k (length acc)) as [->|Nk].
          -- rewrite nth_error_app2, Nat.sub_diag by lia. rewrite Hw, upd_eq. reflexivity.
          -- rewrite nth_error_app1 by lia. rewrite upd_neq.
             { apply Hm. lia. }
             rewrite Hw. intros E. symmetry in E. apply mod_inj in E; try lia.
        * rewrite app_nil_r in *. apply Hm. lia.
    - intros E. unfold o, s', fc_step. cbv zeta. fold copy. rewrite Hrd, E. cbn [fst snd fc_dout fo_data].
      split; [|reflexivity]. specialize (Hrange E).
      destruct copy; [rewrite Hr|rewrite Ht]; apply Hm; lia.
  Qed.

  Lemma fcopy_run is s acc m p : CRep s acc m p -> fcopy_law (D - 1) acc m p (trace (fc_step D) s is).
  Proof.
    revert s acc m p. induction is as [|i is IH]; intros s acc m p R; [exact I|].
    rewrite trace_cons. cbn [fcopy_law].
    pose proof (crep_wwait _ _ _ _ R) as Ew. pose proof (crep_rwait _ _ _ _ R) as Er.
    pose proof (crep_step s acc m p i R) as St. cbv zeta in St.
    assert (Ow : fo_wwait (snd (fc_step D s i)) = fc_wwait D s) by reflexivity.
    assert (Or : fo_rwait (snd (fc_step D s i)) = fc_rwait s (fi_cvld i && fi_cdata i)) by reflexivity.
    rewrite Ow, Or.
    pose proof (cr_mp _ _ _ _ R). pose proof (cr_cap _ _ _ _ R).
    split; [assumption|]. split; [assumption|].
    split. { rewrite Ew. apply Nat.eqb_eq. }
    split. { unfold fc_rwait. rewrite Er. destruct (fi_cvld i && fi_cdata i).
             - split; [discriminate|intros []; discriminate].
             - rewrite Nat.eqb_eq. tauto. }
    destruct (fi_ren i && negb (fc_rwait s (fi_cvld i && fi_cdata i))) eqn:Erd.
    - destruct (fi_cvld i && fi_cdata i) eqn:Ec.
      + intros Hlt. destruct (St (fun _ => Hlt)) as [R' Ho]. destruct (Ho eq_refl) as [E1 E2].
        rewrite E2. split; [exact E1|]. apply IH. exact R'.
      + destruct (St (fun H => False_ind _ ltac:(discriminate H))) as [R' Ho].
        destruct (Ho eq_refl) as [E1 E2]. rewrite E2. split; [exact E1|]. apply IH. exact R'.
    - destruct (St (fun H => False_ind _ ltac:(discriminate H))) as [R' _].
      apply IH. exact R'.
  Qed.
End Inner.

Lemma c49 (A : Type) (DEPTH : nat) (m0 : nat -> A) (d0 : A) (is : list (fc_in A)) :
  1 < DEPTH -> fcopy_law (DEPTH - 1) [] 0 0 (trace (fc_step DEPTH) (fc_init m0 d0) is).
Proof. intros H. apply fcopy_run; [exact H|]. apply crep_init. exact H. Qed.

Section Axis.
  Context {D ID : Type}.
  Variable DEPTH : nat.
  Hypothesis HD : 2 < DEPTH.
  Notation W := (cword D ID).

  Record ARep (s : ac_st D ID) (acc : list W) (m p : nat) (rid : option ID) : Prop := {
    ar_f : CRep (DEPTH - 1) (ac_f s) acc m (p + Nat.b2n (ac_ovld s));
    ar_m : m <= p;
    ar_o : ac_ovld s = true -> nth_error acc p = Some (fc_dout (ac_f s));
    ar_v : ac_rvld s = match rid with Some _ => true | None => false end;
    ar_r : forall r, rid = Some r -> ac_rval s = r;
    ar_l : forall k w, m <= k < p -> nth_error acc k = Some w -> cw_last w = false }.

  Lemma arep_init m0 d0 r0 : ARep (ac_init m0 d0 r0) [] 0 0 None.
  Proof. constructor; cbn; try discriminate; try lia; try reflexivity. apply crep_init. lia. Qed.

  Lemma nth_opt (acc : list W) b x k w : k < length acc -> nth_error (acc ++ opt_list b x) k = Some w -> nth_error acc k = Some w.
  Proof. intros H. now rewrite nth_error_app1. Qed.
  Lemma nth_opt' (acc : list W) b x k w : nth_error acc k = Some w -> nth_error (acc ++ opt_list b x) k = Some w.
  Proof. intros H. rewrite nth_error_app1; [exact H|]. apply nth_error_Some. now rewrite H. Qed.

  Lemma axis_step s acc m p rid i : ARep s acc m p rid ->
    let s' := fst (ac_step DEPTH s i) in
    let o := snd (ac_step DEPTH s i) in
    let acc' := acc ++ opt_list (ai_vld i && ao_rd o) (ai_word i) in
    if ao_vld o && ai_rd i then
      exists w, nth_error acc p = Some w /\ ao_word o = set_id w rid /\
        if cw_last w then
          if ai_copy i then ARep s' acc' m m (Some (ai_repl i))
          else ARep s' acc' (p + 1) (p + 1) None
        else ARep s' acc' m (p + 1) rid
    else ARep s' acc' m p rid.
  Proof.
    intros [Rf Hm Ho Hv Hr Hl] s' o acc'.
    pose proof (crep_step (DEPTH - 1) ltac:(lia) _ _ _ _
      (mk_fci (ai_vld i && negb (fc_wwait (DEPTH - 1) (ac_f s))) (ai_word i)
              ((ai_rd i || negb (ac_ovld s)) && negb (fc_rwait (ac_f s) ((ac_ovld s && cw_last (fc_dout (ac_f s)) && ai_rd i) && ai_copy i)))
              (ac_ovld s && cw_last (fc_dout (ac_f s)) && ai_rd i) (ai_copy i)) Rf) as St.
    cbv zeta in St. cbn [fi_wen fi_data fi_ren fi_cvld fi_cdata] in St.
    pose proof (cr_mp _ _ _ _ _ Rf) as Hmp.
    pose proof (crep_rwait (DEPTH - 1) ltac:(lia) _ _ _ _ Rf) as Er.
    assert (Hacc : acc' = acc ++ opt_list (ai_vld i && negb (fc_wwait (DEPTH - 1) (ac_f s))) (ai_word i)) by reflexivity.
    assert (Hdd : ai_vld i && negb (fc_wwait (DEPTH - 1) (ac_f s)) && negb (fc_wwait (DEPTH - 1) (ac_f s)) =
                  ai_vld i && negb (fc_wwait (DEPTH - 1) (ac_f s))).
    { destruct (ai_vld i), (fc_wwait (DEPTH - 1) (ac_f s)); reflexivity. }
    rewrite Hdd, <- Hacc in St. clear Hdd.
    unfold o, ac_step at 1. cbn [snd ao_vld].
    destruct (ac_ovld s) eqn:Eo.
    - specialize (Ho eq_refl). assert (Hpl : p < length acc) by (apply nth_error_Some; now rewrite Ho).
      cbn [Nat.b2n] in *.
      destruct (ai_rd i) eqn:Erd; cbn [andb orb negb] in *.
      + exists (fc_dout (ac_f s)). split; [exact Ho|]. split.
        { unfold o, ac_step, ac_shown. cbn [snd ao_word]. unfold set_id.
          rewrite Hv. destruct rid as [r|]; [now rewrite (Hr _ eq_refl)|]. destruct (fc_dout (ac_f s)); reflexivity. }
        destruct (cw_last (fc_dout (ac_f s))) eqn:El; cbn [andb] in *.
        * destruct (ai_copy i) eqn:Ec; cbn [andb negb fc_rwait] in *.
          -- destruct (St (fun _ => ltac:(lia))) as [R' Hn]. destruct (Hn eq_refl) as [Hn1 _].
             constructor; unfold s', ac_step; rewrite ?Eo, ?El, ?Erd, ?Ec; cbn [andb orb negb fc_rwait fst ac_f ac_ovld ac_rvld ac_rval Nat.b2n].
             ++ exact R'.
             ++ lia.
             ++ intros _. rewrite Hacc. apply nth_opt'. exact Hn1.
             ++ reflexivity.
             ++ intros r E. now injection E.
             ++ intros; lia.
          -- destruct (St (fun H => False_ind _ (Bool.diff_false_true ltac:(now rewrite ?andb_false_r in H)))) as [R' Hn].
             constructor; unfold s', ac_step; rewrite ?Eo, ?El, ?Erd, ?Ec; cbn [andb orb negb fst ac_f ac_ovld ac_rvld ac_rval].
             ++ unfold fc_rwait in *. destruct (fc_wr (ac_f s) =? fc_tmp (ac_f s)); cbn [negb andb Nat.b2n] in *;
                  [rewrite Nat.add_0_r|]; exact R'.
             ++ lia.
             ++ intros Hw. unfold fc_rwait in *. rewrite Hw in *. cbn [andb negb] in *.
                destruct (Hn eq_refl) as [Hn1 _]. rewrite Hacc. apply nth_opt'. exact Hn1.
             ++ reflexivity.
             ++ discriminate.
             ++ intros; lia.
        * destruct (St (fun H => False_ind _ (Bool.diff_false_true ltac:(now rewrite ?andb_false_r in H)))) as [R' Hn].
          constructor; unfold s', ac_step; rewrite ?Eo, ?El, ?Erd; cbn [andb orb negb fst ac_f ac_ovld ac_rvld ac_rval].
          -- unfold fc_rwait in *. destruct (fc_wr (ac_f s) =? fc_tmp (ac_f s)); cbn [negb andb Nat.b2n] in *;
               [rewrite Nat.add_0_r|]; exact R'.
          -- lia.
          -- intros Hw. unfold fc_rwait in *. rewrite Hw in *. cbn [andb negb] in *.
             destruct (Hn eq_refl) as [Hn1 _]. rewrite Hacc. apply nth_opt'. exact Hn1.
          -- exact Hv.
          -- exact Hr.
          -- intros k w Hk Hw. destruct (Nat.eq_dec k p) as [->|Nk].
             ++ apply nth_opt in Hw; [|lia]. rewrite Ho in Hw. injection Hw as <-. exact El.
             ++ apply nth_opt in Hw; [|lia]. apply (Hl k); [lia|exact Hw].
      + rewrite ?andb_false_r in *. cbn [andb] in *.
        destruct (St (fun H => False_ind _ ltac:(discriminate H))) as [R' _].
        constructor; unfold s', ac_step; rewrite ?Eo, ?Erd, ?andb_false_r; cbn [andb orb negb fst ac_f ac_ovld ac_rvld ac_rval Nat.b2n].
        * exact R'.
        * lia.
        * intros _. unfold fc_step. cbn. rewrite Hacc. now apply nth_opt'.
        * exact Hv.
        * exact Hr.
        * intros k w Hk Hw. apply nth_opt in Hw; [|lia]. now apply (Hl k).
    - cbn [andb orb negb Nat.b2n] in *. rewrite ?Nat.add_0_r in *. rewrite ?orb_true_r in *. cbn [andb] in *.
      destruct (St (fun H => False_ind _ (Bool.diff_false_true ltac:(now rewrite ?andb_false_r in H)))) as [R' Hn].
      constructor; unfold s', ac_step; rewrite ?Eo, ?orb_true_r, ?andb_false_r; cbn [andb orb negb fst ac_f ac_ovld ac_rvld ac_rval].
      + unfold fc_rwait in *. destruct (fc_wr (ac_f s) =? fc_tmp (ac_f s)); cbn [negb andb Nat.b2n] in *;
          [rewrite Nat.add_0_r|]; exact R'.
      + lia.
      + intros Hw. unfold fc_rwait in *. rewrite Hw in *. cbn [andb negb] in *.
        destruct (Hn eq_refl) as [Hn1 _]. rewrite Hacc. apply nth_opt'. exact Hn1.
      + exact Hv.
      + exact Hr.
      + intros k w Hk Hw. apply nth_opt in Hw; [|lia]. now apply (Hl k).
  Qed.

  Lemma axis_run is s acc m p rid : ARep s acc m p rid ->
    copy_law acc m p rid (trace (ac_step DEPTH) s is) /\
    exists m' p' rid', ARep (final (ac_step DEPTH) s is) (acc ++ ac_accepted (trace (ac_step DEPTH) s is)) m' p' rid'.
  Proof.
    revert s acc m p rid. induction is as [|i is IH]; intros s acc m p rid R.
    { split; [exact I|]. exists m, p, rid. cbn. now rewrite app_nil_r. }
    pose proof (axis_step s acc m p rid i R) as St. cbv zeta in St.
    rewrite trace_cons, final_cons. cbn [copy_law]. unfold ac_accepted. cbn [flat_map fst snd].
    rewrite app_assoc. fold (ac_accepted (trace (ac_step DEPTH) (fst (ac_step DEPTH s i)) is)).
    destruct (ao_vld (snd (ac_step DEPTH s i)) && ai_rd i).
    - destruct St as (w & Hw & Ew & St).
      destruct (cw_last w) eqn:El; [destruct (ai_copy i)|];
        (destruct (IH _ _ _ _ _ St) as [H1 H2]; split; [exists w; rewrite El; auto|exact H2]).
    - apply (IH _ _ _ _ _ St).
  Qed.
End Axis.

Lemma c49_axis (D ID : Type) (DEPTH : nat) m0 d0 r0 (is : list (ac_in D ID)) :
  2 < DEPTH -> copy_law [] 0 0 None (trace (ac_step DEPTH) (ac_init m0 d0 r0) is).
Proof. intros H. apply (axis_run DEPTH H). apply arep_init. exact H. Qed.

Lemma open_suffix {D ID} (l : list (cword D ID)) m :
  (forall k w, m <= k < length l -> nth_error l k = Some w -> cw_last w = false) -> length l - m <= open_frame l.
Proof.
  revert m. induction l as [|x l IH]; intros m H; [cbn; lia|]. cbn [open_frame length].
  destruct m as [|m].
  - assert (E : existsb cw_last l = false).
    { apply not_true_is_false. intros E. apply existsb_exists in E as (w & Hin & Hw).
      apply In_nth_error in Hin as [k Hk]. rewrite (H (S k) w) in Hw; [discriminate| |exact Hk].
      assert (k < length l) by (apply nth_error_Some; now rewrite Hk). cbn [length]. lia. }
    rewrite E, (H 0 x) by (cbn; auto with arith). lia.
  - assert (Hi : length l - m <= open_frame l).
    { apply IH. intros k w Hk Hw. apply (H (S k) w); [cbn [length]; lia|exact Hw]. }
    destruct (existsb cw_last l) eqn:E; [lia|]. destruct (cw_last x); lia.
Qed.

Lemma c49_live (D ID : Type) (DEPTH : nat) m0 d0 r0 (is : list (ac_in D ID)) (i j : ac_in D ID) :
  2 < DEPTH ->
  let s0 := ac_init m0 d0 r0 in
  let s := final (ac_step DEPTH) s0 is in
  open_frame (ac_accepted (trace (ac_step DEPTH) s0 is)) < DEPTH - 2 ->
  ao_rd (snd (ac_step DEPTH s i)) = true \/ ao_vld (snd (ac_step DEPTH s i)) = true \/
  ao_vld (snd (ac_step DEPTH (fst (ac_step DEPTH s i)) j)) = true.
Proof.
  intros HD s0 s Hopen.
  destruct (axis_run DEPTH HD is s0 [] 0 0 None (arep_init DEPTH HD m0 d0 r0)) as [_ (m & p & rid & R)].
  fold s in R. cbn [app] in R. set (acc := ac_accepted (trace (ac_step DEPTH) s0 is)) in *. clearbody acc s.
  destruct R as [Rf Hm Ho _ _ Hl].
  destruct (ac_ovld s) eqn:Eo; [right; left; exact Eo|].
  destruct (fc_wwait (DEPTH - 1) (ac_f s)) eqn:Ew; [|left; unfold ac_step; cbn; now rewrite Ew].
  right; right. unfold ac_step at 1. cbn [snd ao_vld]. unfold ac_step. cbn [fst ac_ovld].
  rewrite Eo. cbn [andb negb]. rewrite orb_true_r. cbn [fc_rwait].
  rewrite (crep_rwait (DEPTH - 1) ltac:(lia) _ _ _ _ Rf). cbn [Nat.b2n]. rewrite Nat.add_0_r.
  destruct (Nat.eqb_spec p (length acc)) as [e|e]; [|reflexivity].
  rewrite (crep_wwait (DEPTH - 1) ltac:(lia) _ _ _ _ Rf) in Ew. apply Nat.eqb_eq in Ew.
  assert (length acc - m <= open_frame acc); [|lia].
  apply open_suffix. intros k w Hk Hw. apply (Hl k); [lia|exact Hw].
Qed.

(** a frame of DEPTH - 1 words never passes *)
Definition c49_stuck_in : list (ac_in nat nat) :=
  let w k := mk_cw k 0 false in
  [mk_aci true (w 1) true false 0; mk_aci true (w 2) true false 0; mk_aci true (mk_cw 3 0 true) true false 0;
   mk_aci true (mk_cw 3 0 true) true false 0; mk_aci true (mk_cw 3 0 true) true false 0].
Lemma stuck_run {D ID} DEPTH (js : list (ac_in D ID)) s :
  fc_wwait (DEPTH - 1) (ac_f s) = true -> fc_wr (ac_f s) = fc_tmp (ac_f s) -> ac_ovld s = false ->
  ac_accepted (trace (ac_step DEPTH) s js) = [] /\ ac_delivered (trace (ac_step DEPTH) s js) = [].
Proof.
  revert s. induction js as [|j js IH]; intros s Hw Ht Ho; [now split|].
  rewrite trace_cons. unfold ac_accepted, ac_delivered. cbn [flat_map fst snd].
  assert (E1 : ao_rd (snd (ac_step DEPTH s j)) = false) by (unfold ac_step; cbn; now rewrite Hw).
  assert (E2 : ao_vld (snd (ac_step DEPTH s j)) = false) by exact Ho.
  rewrite E1, E2, andb_false_r. cbn [opt_list andb app].
  unfold fc_wwait in Hw.
  assert (Hst : forall x, fc_step (DEPTH - 1) (ac_f s) (mk_fci false (ai_word j) false false x) =
                          (ac_f s, snd (fc_step (DEPTH - 1) (ac_f s) (mk_fci false (ai_word j) false false x)))).
  { intros x. unfold fc_step. cbn. destruct (ac_f s); reflexivity. }
  assert (Hs : ac_f (fst (ac_step DEPTH s j)) = ac_f s /\ ac_ovld (fst (ac_step DEPTH s j)) = false).
  { unfold ac_step, fc_wwait, fc_rwait. cbn [fst ac_f ac_ovld]. rewrite Ho, Hw, Ht, Nat.eqb_refl. cbn [andb orb negb].
    rewrite !andb_false_r, orb_true_r. cbn [andb negb]. rewrite Hst. now split. }
  destruct Hs as [Ef Eo]. apply (IH (fst (ac_step DEPTH s j))); unfold fc_wwait; rewrite ?Ef; assumption.
Qed.
Lemma c49_deadlock :
  exists is : list (ac_in nat nat), forall js,
    let tr l := trace (ac_step 4) (ac_init (fun _ => mk_cw 0 0 false) (mk_cw 0 0 false) 0) l in
    (forall i, In i is -> ai_vld i = true /\ ai_rd i = true) /\
    map (@cw_data nat nat) (map ai_word is) = [1; 2; 3; 3; 3] /\
    map (@cw_data nat nat) (ac_accepted (tr (is ++ js))) = [1; 2] /\
    map (@cw_data nat nat) (ac_delivered (tr (is ++ js))) = [1; 2].
Proof.
  exists c49_stuck_in. intros js tr. split.
  { intros i Hi. cbn in Hi. repeat (destruct Hi as [<-|Hi]; [now split|]). destruct Hi. }
  split; [reflexivity|]. unfold tr. rewrite trace_app.
  set (s1 := final _ _ c49_stuck_in).
  destruct (stuck_run 4 js s1) as [Ha Hb]; [vm_compute; reflexivity..|].
  unfold ac_accepted, ac_delivered in *. rewrite !flat_map_app, Ha, Hb, !app_nil_r.
  split; vm_compute; reflexivity.
Qed.

Section RegCopy.
  Context {D ID : Type}.
  Notation W := (cword D ID).
  Lemma rc_run is (s : stage W) acc p rid :
    sk s = KLat ->
    (if occ s then exists w, nth_error acc p = Some w /\ sdat s = set_id w rid /\ cw_last w = true /\ length acc = p + 1
     else p = length acc /\ rid = None) ->
    (forall c, In c (trace rc_step s is) -> ai_vld (fst c) = true -> cw_last (ai_word (fst c)) = true) ->
    ((forall x y : ID, x = y) \/ (forall c, In c (trace rc_step s is) -> ai_copy (fst c) = true -> ao_vld (snd c) = true)) ->
    copy_law acc p p rid (trace rc_step s is).
  Proof.
    revert s acc p rid. induction is as [|i is IH]; intros s acc p rid Hk R Hl Hg; [exact I|].
    rewrite trace_cons in *. cbn [copy_law].
    set (s' := fst (rc_step s i)) in *. set (o := snd (rc_step s i)) in *.
    assert (Hl' : forall c, In c (trace rc_step s' is) -> ai_vld (fst c) = true -> cw_last (ai_word (fst c)) = true)
      by (intros c Hc; apply Hl; now right).
    assert (Hg' : (forall x y : ID, x = y) \/ (forall c, In c (trace rc_step s' is) -> ai_copy (fst c) = true -> ao_vld (snd c) = true))
      by (destruct Hg as [Hg|Hg]; [now left|right; intros c Hc; apply Hg; now right]).
    assert (Hli : ai_vld i = true -> cw_last (ai_word i) = true) by (apply (Hl (i, o)); now left).
    assert (Hgi : (forall x y : ID, x = y) \/ (ai_copy i = true -> occ s = true))
      by (destruct Hg as [Hg|Hg]; [now left|right; apply (Hg (i, o)); now left]).
    assert (Hk' : sk s' = KLat) by (unfold s', rc_step, stage_next; cbn [fst]; rewrite Hk; reflexivity).
    assert (Hid : ai_copy i = false \/ occ s = false ->
                  mk_cw (cw_data (ai_word i)) (if ai_copy i then ai_repl i else cw_id (ai_word i)) (cw_last (ai_word i)) = ai_word i).
    { intros H. destruct (ai_word i) as [d x l]. cbn. f_equal.
      destruct Hgi as [He|He]; [apply He|]. destruct (ai_copy i); [|reflexivity]. rewrite (He eq_refl) in H. destruct H; discriminate. }
    assert (Eo : ao_vld o = occ s) by reflexivity.
    assert (Er : ao_rd o = (if occ s then ai_rd i else true) && negb (ai_copy i && occ s))
      by (unfold o, rc_step, stage_rd; cbn [snd ao_rd]; now rewrite Hk).
    assert (Ew : ao_word o = sdat s) by reflexivity.
    rewrite Eo, Er, Ew. unfold s', rc_step, stage_next in IH. 
    destruct (occ s) eqn:Eoc.
    - destruct R as (w & Hw & Es & Elast & Hlen).
      destruct (ai_rd i) eqn:Erd; cbn [andb].
      + exists w. split; [exact Hw|]. split; [exact Es|]. rewrite Elast.
        destruct (ai_copy i) eqn:Ec; cbn [andb negb].
        * rewrite andb_false_r. cbn [opt_list]. rewrite app_nil_r. apply IH; try assumption.
          unfold s', rc_step, stage_next. cbn [fst]. rewrite Hk, Eoc, Erd, Ec. cbn.
          exists w. split; [exact Hw|]. rewrite Es. unfold set_id. destruct rid; cbn; auto.
        * rewrite andb_true_r. apply IH; try assumption.
          unfold s', rc_step, stage_next. cbn [fst]. rewrite Hk, Eoc, Erd, Ec. cbn.
          destruct (ai_vld i) eqn:Ev; cbn [opt_list].
          -- cbn. exists (ai_word i). rewrite nth_error_app2 by lia. replace (p + 1 - length acc) with 0 by lia.
             split; [reflexivity|]. cbn [set_id]. split; [|split; [auto|rewrite app_length; cbn; lia]].
             destruct (ai_word i); reflexivity.
          -- cbn. rewrite app_nil_r. now split.
      + rewrite andb_false_r. cbn [opt_list]. rewrite app_nil_r. apply IH; try assumption.
        unfold s', rc_step, stage_next. cbn [fst]. rewrite Hk, Eoc, Erd. rewrite !andb_false_r. cbn.
        exists w. auto.
    - destruct R as [-> ->]. rewrite !andb_false_r. cbn [andb negb].
      rewrite andb_true_r. apply IH; try assumption.
      unfold s', rc_step, stage_next. cbn [fst]. rewrite Hk, Eoc. rewrite andb_false_r. cbn [orb].
      destruct (ai_vld i) eqn:Ev; cbn [occ sdat opt_list].
      + exists (ai_word i). rewrite nth_error_app2, Nat.sub_diag by lia. split; [reflexivity|].
        cbn [set_id]. split; [apply Hid; now right|]. split; [auto|]. rewrite app_length; reflexivity.
      + rewrite app_nil_r. now split.
  Qed.
End RegCopy.

Lemma c49_reg (D ID : Type) (d0 : cword D ID) (is : list (ac_in D ID)) :
  let t := trace rc_step (rc_init d0) is in
  (forall c, In c t -> ai_vld (fst c) = true -> cw_last (ai_word (fst c)) = true) ->
  (forall x y : ID, x = y) \/ (forall c, In c t -> ai_copy (fst c) = true -> ao_vld (snd c) = true) ->
  copy_law [] 0 0 None t.
Proof. intros t H1 H2. apply rc_run; try assumption; [reflexivity|]. cbn. now split. Qed.

(** finding: dataOut_copy_frame high while dataOut.valid is low replaces the id of the accepted word *)
Definition c49_id_in : list (ac_in nat nat) :=
  [mk_aci true (mk_cw 5 1 true) false true 9; mk_aci false (mk_cw 0 0 true) true false 0].
Lemma c49_id_bad :
  exists is : list (ac_in nat nat),
    let t := trace rc_step (rc_init (mk_cw 0 0 false)) is in
    (forall c, In c t -> ai_vld (fst c) = true -> cw_last (ai_word (fst c)) = true) /\
    ac_accepted t = [mk_cw 5 1 true] /\ ac_delivered t = [mk_cw 5 9 true] /\ ~ copy_law [] 0 0 None t.
Proof.
  exists c49_id_in. cbv zeta. split.
  { intros c Hc. cbn in Hc. repeat (destruct Hc as [<-|Hc]; [reflexivity|]). destruct Hc. }
  split; [reflexivity|]. split; [reflexivity|].
  cbn. intros (w & Hw & He & _). injection Hw as <-. discriminate He.
Qed.

(** an empty replay: the fifo then hands out words which were never written *)
Definition c49_empty_in : list (fc_in nat) := [mk_fci false 0 true true true; mk_fci false 0 true false false].
Lemma c49_empty :
  exists is : list (fc_in nat),
    let t := trace (fc_step 4) (fc_init (fun k => 100 + k) 0) is in
    (forall c, In c t -> fi_wen (fst c) = false) /\
    map (fun c => (fi_ren (fst c) && negb (fo_rwait (snd c)), fo_data (snd c))) t = [(true, 100); (true, 101)].
Proof.
  exists c49_empty_in. cbv zeta. split; [|vm_compute; reflexivity].
  intros c Hc. cbn in Hc. repeat (destruct Hc as [<-|Hc]; [reflexivity|]). destruct Hc.
Qed.

(** sample histories *)
Definition c49_hist : list (fc_in nat) :=
  [mk_fci true 1 false false false; mk_fci true 2 true false false; mk_fci true 3 true false false;
   mk_fci true 4 true true true; mk_fci false 0 true false false; mk_fci false 0 true true false; mk_fci true 5 true false false;
   mk_fci false 0 true true true].
Definition c49_axis_hist : list (ac_in nat nat) :=
  let nop c := mk_aci false (mk_cw 0 0 false) true c 7 in
  [mk_aci true (mk_cw 1 3 false) true false 0; mk_aci true (mk_cw 2 3 true) true false 0;
   mk_aci true (mk_cw 4 5 true) true false 0; nop true; nop true; nop false; nop false; nop false; nop false; nop false].
