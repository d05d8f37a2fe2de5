From Coq Require Import Lia.
From Verif Require Import Base BaseFacts StreamSpec StreamFacts FifoModel FifoSpec FifoProofs HsFifoProofs ToLiteModel ToLiteSpec.

Section R.
  Context {P : Type}.
  Variables (AW LW : nat) (STEP : N) (DEPTH : nat) (lastonly : bool).
  Hypothesis HD : 2 <= DEPTH.
  Notation step := (tl_step (P := P) AW LW STEP DEPTH lastonly).

  Definition run_of (a : N) (n : nat) : list N := map (fun k => ((a + N.of_nat k * STEP) mod 2 ^ N.of_nat AW)%N) (seq 0 n).
  Definition tag2 (x : nat * nat) : list (nat * bool) := repeat (fst x, false) (snd x) ++ [(fst x, true)].

  Lemma pow_pos : (2 ^ N.of_nat AW <> 0)%N. Proof. apply N.pow_nonzero. lia. Qed.

  Lemma run_of_S a n : (a < 2 ^ N.of_nat AW)%N -> run_of a (S n) = a :: run_of ((a + STEP) mod 2 ^ N.of_nat AW)%N n.
  Proof.
    intros Ha. unfold run_of. cbn [seq map]. f_equal; [rewrite N.mul_0_l, N.add_0_r; apply N.mod_small; exact Ha|].
    rewrite <- seq_shift, map_map. apply map_ext. intros k. rewrite N.add_mod_idemp_l by apply pow_pos. f_equal. lia.
  Qed.

  Definition pend (s : tl_st) : list N := if l_vld s then run_of (l_addr s) (l_rem s + 1) else [].
  Definition cur (s : tl_st) : list (nat * bool) := if r_vld s then tag2 (r_id s, r_rem s) else [].
  Definition inv1 (s : tl_st) : Prop := l_vld s = true -> l_rem s < 2 ^ LW /\ (l_addr s < 2 ^ N.of_nat AW)%N.

  Lemma addr_side s i : inv1 s -> tl_in_ok AW LW i ->
    inv1 (fst (step s i)) /\
    pend s ++ flat_map (beats AW STEP) (req1 (i, snd (step s i))) = addr1 (i, snd (step s i)) ++ pend (fst (step s i)).
  Proof.
    intros Hi [Ha Hl]. unfold inv1, pend, req1, addr1, tl_step in *.
    destruct (dreg (hf (l_fifo s))) as [fid flen].
    pose proof (N.mod_lt (l_addr s + STEP) _ pow_pos) as M1. pose proof (N.mod_lt (ai_addr i + STEP) _ pow_pos) as M2.
    destruct (l_vld s) eqn:Ev.
    - destruct (Hi eq_refl) as [H1 H2]. destruct (ao_rd i) eqn:Er;
        (destruct (if r_vld s then _ else _) as [[rr rid] rv]; cbn [fst snd l_vld l_rem l_addr ai_rd ao_vld ao_addr negb andb]; rewrite andb_false_r, ?Er; cbn [flat_map]; rewrite app_nil_r).
      + destruct (Nat.eqb_spec (l_rem s) 0) as [E|E]; cbn [negb].
        * split; [discriminate|]. rewrite E. change (0 + 1) with 1. rewrite run_of_S by exact H2. reflexivity.
        * rewrite wdec_pos by lia. split; [intros _; split; [lia|exact M1]|].
          replace (l_rem s + 1) with (S (l_rem s)) by lia. rewrite run_of_S by exact H2. cbn [app]. f_equal. f_equal. lia.
      + split; [intros _; split; assumption|reflexivity].
    - destruct (if r_vld s then _ else _) as [[rr rid] rv]. cbn [fst snd l_vld l_rem l_addr ai_rd ao_vld ao_addr negb andb app].
      set (frd := negb (f_wwait (hf (l_fifo s)))).
      destruct (ai_vld i), (ao_rd i), frd; cbn [andb]; rewrite ?andb_false_r; cbn [andb flat_map app]; try (split; [discriminate|reflexivity]).
      unfold beats at 1. cbn [snd fst]. fold (run_of (ai_addr i) (ai_len i + 1)). rewrite app_nil_r.
      replace (ai_len i + 1) with (S (ai_len i)) by lia. rewrite run_of_S by exact Ha.
      destruct (Nat.eqb_spec (ai_len i) 0) as [E|E]; cbn [negb andb].
      + split; [discriminate|]. rewrite E. reflexivity.
      + rewrite wdec_pos by lia. split; [intros _; split; [lia|exact M2]|]. f_equal. f_equal. lia.
  Qed.

  (** the tag of a taken beat *)
  Definition tag1 (s : tl_st) (c : tl_in P * tl_out P) : list (nat * bool) :=
    if ri_vld (fst c) && ri_rd (snd c) then [(r_id s, r_rem s =? 0)] else [].

  Lemma rsp_side s i q : HRep DEPTH (l_fifo s) q ->
    let c := (i, snd (step s i)) in
    exists q', HRep DEPTH (l_fifo (fst (step s i))) q' /\
    cur s ++ flat_map tag2 q ++ flat_map tags (req1 c) = tag1 s c ++ cur (fst (step s i)) ++ flat_map tag2 q' /\
    length (beat1 c) = length (tag1 s c) /\
    rsp1 c = filter (fun x => if lastonly then snd (fst x) else true) (combine (tag1 s c) (beat1 c)) /\
    (cur s = [] -> q <> [] -> ovld (l_fifo s) = false -> ovld (l_fifo (fst (step s i))) = true /\ cur (fst (step s i)) = []) /\
    (cur s = [] -> ovld (l_fifo s) = true -> r_vld (fst (step s i)) = true).
  Proof.
    intros R. unfold tl_step. destruct (dreg (hf (l_fifo s))) as [fid flen] eqn:Ed.
    set (beat := ri_vld i && ro_rd i). set (f_rd := if r_vld s then beat && (r_rem s =? 0) else true).
    set (fvld := negb (l_vld s) && ai_vld i && ao_rd i).
    set (hi := mk_hin fvld (ai_id i, ai_len i) f_rd).
    destruct (hrep_step DEPTH HD (l_fifo s) q hi R) as (R' & Hhd & _ & _ & _ & _ & Hfill & _).
    rewrite step_out in R', Hhd, Hfill. cbn [h_rd h_vld h_data i_vld i_rd i_data hi] in R', Hhd, Hfill.
    set (frd := negb (f_wwait (hf (l_fifo s)))) in *.
    set (f' := fst (hsf_step DEPTH (l_fifo s) hi)) in *.
    destruct (if l_vld s then _ else _) as [[rm vl] ad].
    assert (Hacc : req1 (i, mk_tlo (negb (l_vld s) && (ao_rd i && frd)) (if l_vld s then true else ai_vld i && frd)
                           (if l_vld s then l_addr s else ai_addr i) (ro_rd i && r_vld s)
                           (ri_vld i && (if lastonly then r_vld s && (r_rem s =? 0) else r_vld s)) (r_id s)
                           ((r_rem s =? 0) && r_vld s) (ri_data i)) = if fvld && frd then [(ai_id i, ai_addr i, ai_len i)] else []).
    { unfold req1, fvld. cbn [fst snd ai_rd]. destruct (l_vld s), (ai_vld i), (ao_rd i), frd; reflexivity. }
    exists ((if ovld (l_fifo s) && f_rd then tl q else q) ++ (if fvld && frd then [(ai_id i, ai_len i)] else [])).
    assert (Et : flat_map tags (if fvld && frd then [(ai_id i, ai_addr i, ai_len i)] else []) =
                 flat_map tag2 (if fvld && frd then [(ai_id i, ai_len i)] else [])).
    { destruct (fvld && frd); reflexivity. }
    rewrite flat_map_app.
    assert (Hq : ovld (l_fifo s) = true -> q = (fid, flen) :: tl q).
    { intros E. rewrite E in Hhd. destruct (Hhd eq_refl) as [q0 Eq]. rewrite Eq, Ed. reflexivity. }
    unfold cur, tag1, beat1, rsp1, f_rd, beat in *. clear f_rd beat Hhd.
    assert (Hc : forall A (x y : list A), length x <> 0 -> x ++ y = [] -> False) by (intros ? [|? ?] ? ? ?; [auto|discriminate]).
    assert (Hnz : forall id n, tag2 (id, n) = [] -> False).
    { intros id n. unfold tag2. cbn [fst snd]. destruct n; discriminate. }
    destruct (r_vld s) eqn:Erv.
    - destruct (ri_vld i) eqn:Ei, (ro_rd i) eqn:Eo; cbn [andb] in *.
      + destruct (Nat.eqb_spec (r_rem s) 0) as [E0|E0]; cbn [negb andb] in *.
        * rewrite E0 in *. rewrite andb_true_r in *. destruct (ovld (l_fifo s)) eqn:Eov; cbn [andb] in *.
          -- cbn [fst snd l_fifo ri_rd ro_vld ro_id ro_last ro_data r_vld r_id r_rem app flat_map andb].
             rewrite Hacc, Et, ?Ei, ?Eo; cbn [andb]. split; [exact R'|]. split; [rewrite (Hq eq_refl) at 1; cbn [flat_map]; unfold tag2 at 1; cbn [repeat app fst snd]; rewrite <- ?app_assoc; reflexivity|].
             split; [reflexivity|]. split; [destruct lastonly; reflexivity|]. split; intros E; exfalso; exact (Hnz _ _ E).
          -- cbn [fst snd l_fifo ri_rd ro_vld ro_id ro_last ro_data r_vld r_id r_rem app flat_map andb].
             rewrite Hacc, Et, ?Ei, ?Eo; cbn [andb]. split; [exact R'|]. split; [reflexivity|].
             split; [reflexivity|]. split; [destruct lastonly; reflexivity|]. split; intros E; exfalso; exact (Hnz _ _ E).
        * rewrite andb_false_r in *. cbn [fst snd l_fifo ri_rd ro_vld ro_id ro_last ro_data r_vld r_id r_rem app flat_map andb] in *.
          rewrite Hacc, Et, ?Ei, ?Eo; cbn [andb]. split; [exact R'|]. split.
          { unfold tag2 at 1 3. cbn [fst snd]. destruct (r_rem s) as [|k]; [congruence|]. replace (S k - 1) with k by lia. cbn [repeat app].
            reflexivity. }
          split; [reflexivity|]. split; [destruct lastonly; reflexivity|]. split; intros E; exfalso; exact (Hnz _ _ E).
      + rewrite andb_false_r in *. cbn [fst snd l_fifo ri_rd ro_vld ro_id ro_last ro_data r_vld r_id r_rem app flat_map andb] in *.
        rewrite Hacc, Et, ?Ei, ?Eo, ?andb_false_r; cbn [andb app]. split; [exact R'|]. split; [reflexivity|]. split; [reflexivity|]. split; [destruct lastonly; reflexivity|].
        split; intros E; exfalso; exact (Hnz _ _ E).
      + rewrite andb_false_r in *. cbn [fst snd l_fifo ri_rd ro_vld ro_id ro_last ro_data r_vld r_id r_rem app flat_map andb] in *.
        rewrite Hacc, Et, ?Ei, ?Eo, ?andb_false_r; cbn [andb app]. split; [exact R'|]. split; [reflexivity|]. split; [reflexivity|]. split; [destruct lastonly; reflexivity|].
        split; intros E; exfalso; exact (Hnz _ _ E).
      + rewrite andb_false_r in *. cbn [fst snd l_fifo ri_rd ro_vld ro_id ro_last ro_data r_vld r_id r_rem app flat_map andb] in *.
        rewrite Hacc, Et, ?Ei, ?Eo, ?andb_false_r; cbn [andb app]. split; [exact R'|]. split; [reflexivity|]. split; [reflexivity|]. split; [destruct lastonly; reflexivity|].
        split; intros E; exfalso; exact (Hnz _ _ E).
    - rewrite andb_true_r in *. cbn [fst snd l_fifo ri_rd ro_vld ro_id ro_last ro_data r_vld r_id r_rem app flat_map andb] in *.
      rewrite Hacc, Et, !andb_false_r. assert (Ez : ri_vld i && (if lastonly then false else false) = false) by (destruct lastonly, (ri_vld i); reflexivity).
      rewrite Ez. cbn [andb].
      split; [exact R'|]. destruct (ovld (l_fifo s)) eqn:Eov.
      + split; [rewrite (Hq eq_refl) at 1; cbn [flat_map app]; rewrite <- !app_assoc; reflexivity|].
        split; [reflexivity|]. split; [reflexivity|]. split; [discriminate|reflexivity].
      + split; [reflexivity|]. split; [reflexivity|]. split; [reflexivity|].
        split; [|discriminate]. intros _ Hne _. split; [apply Hfill; [reflexivity|exact Hne]|reflexivity].
  Qed.

  Record Inv (s : tl_st) (t : list (tl_in P * tl_out P)) : Prop := mk_inv {
    v_1 : inv1 s;
    v_addr : flat_map (beats AW STEP) (flat_map req1 t) = flat_map addr1 t ++ pend s;
    v_tag : exists q dn, HRep DEPTH (l_fifo s) q /\ flat_map tags (flat_map req1 t) = dn ++ cur s ++ flat_map tag2 q /\
      length (flat_map beat1 t) = length dn /\
      flat_map rsp1 t = filter (fun x => if lastonly then snd (fst x) else true) (combine dn (flat_map beat1 t)) }.

  Lemma combine_app' {X Y} (a b : list X) (c d : list Y) : length a = length c -> combine (a ++ b) (c ++ d) = combine a c ++ combine b d.
  Proof. revert c. induction a as [|x a IH]; intros [|y c] H; cbn in *; try discriminate; [reflexivity|]. rewrite IH by lia. reflexivity. Qed.

  Lemma flat_snoc {X Y} (f : X -> list Y) (t : list X) c : flat_map f (t ++ [c]) = flat_map f t ++ f c.
  Proof. rewrite flat_map_app. cbn [flat_map]. rewrite app_nil_r. reflexivity. Qed.

  Lemma tl_inv m0 d0 a x y is : Forall (tl_in_ok AW LW) is ->
    Inv (final step (tl_init DEPTH m0 d0 a x y) is) (trace step (tl_init DEPTH m0 d0 a x y) is).
  Proof.
    set (s0 := tl_init DEPTH m0 d0 a x y). induction is as [|i is IH] using rev_ind; intros Hok.
    - change (final step s0 []) with s0. change (trace step s0 []) with (@nil (tl_in P * tl_out P)). constructor.
      + intros E. discriminate E.
      + reflexivity.
      + exists [], []. split; [|split; [reflexivity|split; reflexivity]].
        unfold s0, tl_init. cbn [l_fifo]. apply hrep_init; [exact HD|]. unfold init_ok. cbn [length]. lia.
    - apply Forall_app in Hok. destruct Hok as [H1 H2]. inversion H2 as [|? ? Hi _]; subst. destruct (IH H1) as [V1 VA (q & dn & R & VT & VL & VR)].
      rewrite final_snoc, trace_snoc. set (s := final step s0 is) in *. set (t := trace step s0 is) in *.
      set (c := (i, snd (step s i))).
      destruct (addr_side s i V1 Hi) as [A1 A2]. destruct (rsp_side s i q R) as (q' & R' & B1 & B2 & B3 & _). fold c in A2, B1, B2, B3.
      constructor.
      + exact A1.
      + rewrite !flat_snoc, flat_map_app, VA, <- !app_assoc, A2. reflexivity.
      + exists q', (dn ++ tag1 s c). split; [exact R'|]. rewrite !flat_snoc.
        split; [rewrite flat_map_app, VT, <- !app_assoc, B1; reflexivity|].
        split; [rewrite !app_length, VL, B2; reflexivity|].
        rewrite combine_app' by (rewrite VL; reflexivity). rewrite filter_app, <- VR, <- B3. reflexivity.
  Qed.

  Lemma combine_pre {X Y} (a b : list X) (c : list Y) : length a = length c -> combine (a ++ b) c = combine a c.
  Proof. intros H. rewrite <- (app_nil_r c) at 1. rewrite combine_app' by exact H. destruct b; cbn; rewrite app_nil_r; reflexivity. Qed.

  Lemma tl_law m0 d0 a x y is : Forall (tl_in_ok AW LW) is ->
    bridge_law AW STEP lastonly (trace step (tl_init DEPTH m0 d0 a x y) is).
  Proof.
    intros H. destruct (tl_inv m0 d0 a x y is H) as [V1 VA (q & dn & R & VT & VL & VR)].
    set (t := trace _ _ is) in *. split; [exists (pend (final step (tl_init DEPTH m0 d0 a x y) is)); exact VA|]. split.
    - rewrite VT, VL, app_length. lia.
    - rewrite VR, VT. f_equal. symmetry. apply combine_pre. symmetry. exact VL.
  Qed.

  (** While responses are outstanding, after at most two cycles the lite slave is served. *)
  Lemma tl_live m0 d0 a x y is i1 i2 i3 : Forall (tl_in_ok AW LW) is ->
    let s := final step (tl_init DEPTH m0 d0 a x y) is in
    let t := trace step (tl_init DEPTH m0 d0 a x y) is in
    length (flat_map beat1 t) < length (flat_map tags (flat_map req1 t)) ->
    exists c, In c (trace step s [i1; i2; i3]) /\ ri_rd (snd c) = ro_rd (fst c).
  Proof.
    intros H s t Hlt. destruct (tl_inv m0 d0 a x y is H) as [V1 VA (q & dn & R & VT & VL & VR)]. fold s t in V1, VA, R, VT, VL, VR.
    rewrite VT, VL, !app_length in Hlt.
    assert (Hr : forall s' i, r_vld s' = true -> ri_rd (snd (step s' i)) = ro_rd i).
    { intros s' i E. unfold tl_step. destruct (dreg _). destruct (if l_vld s' then _ else _) as [[? ?] ?]. destruct (if r_vld s' then _ else _) as [[? ?] ?].
      cbn [snd ri_rd]. rewrite E, andb_true_r. reflexivity. }
    rewrite !trace_cons.
    destruct (r_vld s) eqn:E1; [exists (i1, snd (step s i1)); split; [left; reflexivity|exact (Hr s i1 E1)]|].
    assert (Ec : cur s = []) by (unfold cur; rewrite E1; reflexivity).
    assert (Hq : q <> []). { intros ->. rewrite Ec in Hlt. cbn in Hlt. lia. }
    destruct (rsp_side s i1 q R) as (q' & R' & B1 & _ & _ & B4 & B5).
    destruct (ovld (l_fifo s)) eqn:E2.
    - exists (i2, snd (step (fst (step s i1)) i2)). split; [right; left; reflexivity|]. apply Hr. apply B5; [exact Ec|exact eq_refl].
    - destruct (B4 Ec Hq eq_refl) as [F1 F2]. 
      destruct (rsp_side (fst (step s i1)) i2 q' R') as (_ & _ & _ & _ & _ & _ & C5).
      exists (i3, snd (step (fst (step (fst (step s i1)) i2)) i3)). split; [right; right; left; reflexivity|]. apply Hr. apply C5; assumption.
  Qed.
End R.

(** two bursts of 3 and 1 beats *)
Definition ex_tl : list (tl_in nat) :=
  [mk_tli true 5 14%N 2 true false 0 true; mk_tli true 6 3%N 0 true false 0 true; mk_tli true 6 3%N 0 true false 0 true;
   mk_tli true 6 3%N 0 true true 100 true; mk_tli false 0 0%N 0 true true 101 true; mk_tli false 0 0%N 0 true true 102 true;
   mk_tli false 0 0%N 0 true true 103 true; mk_tli false 0 0%N 0 true true 103 true].
