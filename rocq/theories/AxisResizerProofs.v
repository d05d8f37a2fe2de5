From Verif Require Import Base BaseFacts StreamSpec StreamFacts HsRegModel AxisResizerModel AxisResizerSpec SimRamProofs.

Section Up.
  Context {S A : Type}.
  Notation word := (axw S A).
  Variables (z : A) (n k : nat).
  Hypothesis Hk : 1 <= k.

  Record URep (s : aup_st A) (cur : list word) : Prop := {
    ur_len : length cur = au_cnt s;
    ur_lt : au_cnt s < k;
    ur_reg : forall j w, nth_error cur j = Some w -> au_regs s j = w_cells w;
    ur_z : forall j, au_cnt s < j -> au_regs s j = zeros z n }.

  Lemma concat_seq_pad (f : nat -> list (A * bool)) c l : (forall j, c <= j -> f j = zeros z n) ->
    concat (map f (seq c l)) = repeat (z, false) (n * l).
  Proof.
    revert c. induction l as [|l IH]; intros c H; cbn [seq map concat]; [now rewrite Nat.mul_0_r|].
    rewrite H by lia. rewrite IH by (intros; apply H; lia). unfold zeros. rewrite <- repeat_app. f_equal. lia.
  Qed.
  Lemma map_seq_cells (f : nat -> list (A * bool)) (ws : list word) :
    (forall j w, nth_error ws j = Some w -> f j = w_cells w) -> map f (seq 0 (length ws)) = map w_cells ws.
  Proof.
    revert f. induction ws as [|w ws IH]; intros f H; [reflexivity|]. cbn [length seq map]. f_equal; [now apply (H 0)|].
    rewrite <- seq_shift, map_map. apply IH. intros j v Hj. now apply (H (Datatypes.S j)).
  Qed.

  Lemma up_out_cells s cur w : URep s cur ->
    concat (map (fun j => if au_cnt s =? j then w_cells w else au_regs s j) (seq 0 k)) =
    concat (map w_cells (cur ++ [w])) ++ repeat (z, false) (n * (k - length (cur ++ [w]))).
  Proof.
    intros R. pose proof (ur_len _ _ R) as L. pose proof (ur_lt _ _ R) as Lt.
    assert (Hl : length (cur ++ [w]) = au_cnt s + 1) by (rewrite app_length, L; reflexivity).
    replace k with (length (cur ++ [w]) + (k - length (cur ++ [w]))) at 1 by lia.
    rewrite seq_app, map_app, concat_app. f_equal.
    - f_equal. apply map_seq_cells. intros j v Hj.
      assert (j < au_cnt s + 1) by (rewrite <- Hl; apply nth_error_Some; congruence).
      destruct (Nat.eqb_spec (au_cnt s) j) as [E|E].
      + rewrite nth_error_app2 in Hj by lia. rewrite L, <- E, Nat.sub_diag in Hj. now injection Hj as <-.
      + rewrite nth_error_app1 in Hj by lia. now apply (ur_reg _ _ R).
    - apply concat_seq_pad. intros j Hj. rewrite Hl in Hj.
      destruct (Nat.eqb_spec (au_cnt s) j); [lia|]. apply (ur_z _ _ R). lia.
  Qed.

  Lemma aup_run s cur is : URep s cur ->
    let t := map rz_obs (trace (aup_step z n k) s is) in
    delivered t = pack z n k cur (accepted t).
  Proof.
    revert s cur. induction is as [|i is IH]; intros s cur R t; [reflexivity|].
    subst t. rewrite trace_cons, map_cons, accepted_cons, delivered_cons.
    pose proof (ur_len _ _ R) as L. pose proof (ur_lt _ _ R) as Lt.
    assert (Hl : length (cur ++ [rz_word i]) = au_cnt s + 1) by (rewrite app_length, L; reflexivity).
    set (s' := fst (aup_step z n k s i)) in *.
    assert (Eobs : rz_obs (i, snd (aup_step z n k s i)) =
                   mk_hs (rz_vld i) (rz_rd (snd (aup_step z n k s i))) (rz_word i) (rz_ovld (snd (aup_step z n k s i))) (rz_ord i)
                         (rz_oword (snd (aup_step z n k s i)))) by reflexivity.
    rewrite Eobs. clear Eobs. cbn [out_vld out_rd out_data in_vld in_rd in_data fst snd].
    assert (Eo : rz_ovld (snd (aup_step z n k s i)) = rz_vld i && ((au_cnt s =? k - 1) || w_last (rz_word i))) by reflexivity.
    assert (Er : rz_rd (snd (aup_step z n k s i)) = rz_ord i) by reflexivity.
    assert (Ew : rz_oword (snd (aup_step z n k s i)) = wide z n k cur (rz_word i)).
    { unfold aup_step, wide. cbn [snd rz_oword]. f_equal. now apply up_out_cells. }
    rewrite Eo, Er, Ew.
    assert (Elast : (w_last (rz_word i) || (length (cur ++ [rz_word i]) =? k)) = ((au_cnt s =? k - 1) || w_last (rz_word i))).
    { rewrite orb_comm, Hl. f_equal. apply eq_iff_eq_true. rewrite !Nat.eqb_eq. lia. }
    destruct (rz_vld i && rz_ord i) eqn:Ehs.
    - apply andb_true_iff in Ehs as [Ev Eor]. rewrite Ev, Eor. cbn [andb app]. cbn [pack]. rewrite Elast.
      rewrite andb_true_r. destruct ((au_cnt s =? k - 1) || w_last (rz_word i)) eqn:El; cbn [app].
      + f_equal. apply IH. subst s'. unfold aup_step. rewrite Ev, Eor, El. cbn [andb fst].
        constructor; cbn [au_cnt au_regs length]; [reflexivity|lia| |reflexivity]. intros j w Hj. destruct j; discriminate.
      + apply IH. subst s'. unfold aup_step. rewrite Ev, Eor, El. cbn [andb fst].
        apply orb_false_iff in El as [El _]. apply Nat.eqb_neq in El.
        assert (Ew2 : winc (log2ceil (k + 1)) (au_cnt s) = au_cnt s + 1).
        { apply winc_small. pose proof (log2ceil_ge (k + 1)). lia. }
        rewrite Ew2. constructor; cbn [au_cnt au_regs]; [exact Hl|lia| |].
        * intros j w Hj. assert (j < au_cnt s + 1) by (rewrite <- Hl; apply nth_error_Some; congruence).
          destruct (Nat.eqb_spec (au_cnt s) j) as [E|E].
          { rewrite nth_error_app2 in Hj by lia. rewrite L, <- E, Nat.sub_diag in Hj. now injection Hj as <-. }
          rewrite nth_error_app1 in Hj by lia. now apply (ur_reg _ _ R).
        * intros j Hj. destruct (Nat.eqb_spec (au_cnt s) j); [lia|]. apply (ur_z _ _ R). lia.
    - assert (Ed : rz_vld i && ((au_cnt s =? k - 1) || w_last (rz_word i)) && rz_ord i = false).
      { destruct (rz_vld i); [|reflexivity]. cbn [andb] in *. rewrite Ehs. apply andb_false_r. }
      rewrite Ed. cbn [app]. apply IH. subst s'. unfold aup_step. rewrite Ehs. cbn [andb fst].
      constructor; cbn [au_cnt au_regs]; try assumption.
      + intros j w Hj. assert (j < au_cnt s) by (rewrite <- L; apply nth_error_Some; congruence).
        destruct (Nat.eqb_spec (au_cnt s) j); [lia|]. rewrite andb_false_r. now apply (ur_reg _ _ R).
      + intros j Hj. destruct (Nat.eqb_spec (au_cnt s) j); [lia|]. rewrite andb_false_r. now apply (ur_z _ _ R).
  Qed.

  Lemma aup_law (is : list (rz_in S A)) :
    let t := map rz_obs (trace (aup_step z n k) (aup_init z n) is) in delivered t = pack z n k [] (accepted t).
  Proof. apply aup_run. constructor; cbn; [reflexivity|lia| |reflexivity]. intros j w H. destruct j; discriminate. Qed.

  Lemma events_wide (cur : list word) (w : word) : Forall (fun v => w_last v = false) cur ->
    flat_map events cur ++ events w = events (wide z n k cur w).
  Proof.
    intros H. unfold wide, events at 2 3. cbn [w_cells w_last w_side].
    rewrite filter_app, map_app. rewrite (app_assoc (flat_map events cur)). f_equal.
    assert (E0 : filter snd (repeat (z, false) (n * (k - length (cur ++ [w])))) = []).
    { induction (n * _) as [|x IHx]; [reflexivity|exact IHx]. }
    rewrite E0, app_nil_r. clear E0. induction cur as [|v cur IH]; cbn [flat_map map app concat].
    - now rewrite app_nil_r.
    - apply Forall_cons_iff in H as [H1 H2]. rewrite filter_app, map_app, <- IH by exact H2.
      unfold events at 1. rewrite H1, app_nil_r. now rewrite app_assoc.
  Qed.
  Lemma pack_events (ws cur : list word) : Forall (fun v => w_last v = false) cur -> length cur < k ->
    exists rest, Forall (fun v => w_last v = false) rest /\ length rest < k /\
      flat_map events cur ++ flat_map events ws = flat_map events (pack z n k cur ws) ++ flat_map events rest.
  Proof.
    revert cur. induction ws as [|w ws IH]; intros cur H Hl.
    - exists cur. cbn. rewrite app_nil_r. auto.
    - cbn [pack flat_map]. destruct (w_last w || (length (cur ++ [w]) =? k)) eqn:E.
      + destruct (IH [] (Forall_nil _) ltac:(cbn; lia)) as (rest & R1 & R2 & R3). exists rest. split; [exact R1|]. split; [exact R2|].
        cbn [flat_map app] in R3 |- *. rewrite R3, !app_assoc. f_equal. f_equal. now apply events_wide.
      + apply orb_false_iff in E as [E1 E2]. apply Nat.eqb_neq in E2. rewrite app_length in E2. cbn in E2.
        destruct (IH (cur ++ [w])) as (rest & R1 & R2 & R3).
        * apply Forall_app. auto.
        * rewrite app_length. cbn. lia.
        * exists rest. split; [exact R1|]. split; [exact R2|]. rewrite <- R3, flat_map_app. cbn [flat_map]. now rewrite app_nil_r, app_assoc.
  Qed.

  Lemma aup_events (is : list (rz_in S A)) :
    let t := map rz_obs (trace (aup_step z n k) (aup_init z n) is) in
    exists rest, Forall (fun v : word => w_last v = false) rest /\ length rest < k /\
      flat_map events (accepted t) = flat_map events (delivered t) ++ flat_map events rest.
  Proof.
    intros t. unfold t. rewrite (aup_law is). fold t. apply (pack_events (accepted t) []); [constructor|cbn; lia].
  Qed.
End Up.

Section Down.
  Context {S A : Type}.
  Notation word := (axw S A).
  Variables (x : list (A * bool)) (k m : nat).
  Hypothesis Hk : 1 <= k.

  Definition dcont (s : adn_st S A) : list word :=
    if occ (ad_reg s) then
      let w := sdat (ad_reg s) in mark (w_side w) (w_last w) (parts (k - ad_cnt s) m (skipn (ad_cnt s * m) (w_cells w)))
    else [].
  Definition dP (s : adn_st S A) : Prop :=
    sk (ad_reg s) = KLat /\ ad_cnt s < k /\
    (if occ (ad_reg s) then length (w_cells (sdat (ad_reg s))) = k * m else ad_cnt s = 0).

  Lemma is_last_eq cnt (cells : list (A * bool)) : cnt < k -> length cells = k * m ->
    ((cnt =? k - 1) || next_not_valid k m cnt cells) = negb (existsb snd (skipn m (skipn (cnt * m) cells))).
  Proof.
    intros Hc Hl. rewrite skipn_skipn_add. unfold next_not_valid. rewrite <- Hl, firstn_all.
    destruct (Nat.eqb_spec cnt (k - 1)) as [E|E]; cbn [orb].
    - rewrite skipn_all2 by nia. reflexivity.
    - replace (m + cnt * m) with ((cnt + 1) * m) by lia. replace (cnt * m + m) with ((cnt + 1) * m) by lia.
      apply eq_iff_eq_true. rewrite existsb_exists. split.
      + intros (i & _ & H). apply andb_true_iff in H as [Hi H]. apply Nat.eqb_eq in Hi. now subst i.
      + intros H. exists cnt. split; [apply in_seq; lia|]. now rewrite Nat.eqb_refl.
  Qed.

  Lemma parts_ne j cells : 1 <= j -> parts j m cells <> @nil (list (A * bool)).
  Proof. destruct j; [lia|discriminate]. Qed.
  Lemma mark_ne (s : S) l (ps : list (list (A * bool))) : ps <> [] -> mark s l ps <> [].
  Proof. destruct ps as [|p [|q ps]]; [congruence|discriminate|discriminate]. Qed.

  Lemma mark_cons (s : S) l p (ps : list (list (A * bool))) : ps <> [] -> mark s l (p :: ps) = mk_axw p s false :: mark s l ps.
  Proof. destruct ps; [congruence|reflexivity]. Qed.

  Lemma adn_step_law (s : adn_st S A) i : dP s -> length (w_cells (rz_word i)) = k * m ->
    dP (fst (adn_step x k m s i)) /\
    dcont s ++ flat_map (unpack k m) (acc1 (rz_obs (i, snd (adn_step x k m s i)))) =
      flat_map (fun w => [w]) (del1 (rz_obs (i, snd (adn_step x k m s i)))) ++ dcont (fst (adn_step x k m s i)).
  Proof.
    intros (Hsk & Hc & Ho) Hw. destruct s as [cnt [sk0 oc w]]. cbn [ad_cnt ad_reg sk occ sdat] in *. subst sk0.
    unfold dP, dcont, adn_step, acc1, del1, rz_obs, stage_next, stage_rd, unpack.
    cbn [fst snd ad_cnt ad_reg sk occ sdat rz_rd rz_ovld rz_oword in_vld in_rd in_data out_vld out_rd out_data].
    destruct oc.
    - rewrite (is_last_eq cnt _ Hc Ho). rewrite (Nat.mul_comm m cnt).
      set (rem := skipn (cnt * m) (w_cells w)) in *.
      rewrite (proj2 (Nat.ltb_lt _ _) Hc).
      assert (Ep : parts (k - cnt) m rem = firstn m rem :: (if existsb snd (skipn m rem) then parts (k - (cnt + 1)) m (skipn m rem) else [])).
      { destruct (k - cnt) as [|j] eqn:E; [lia|]. cbn [parts]. now replace (k - (cnt + 1)) with j by lia. }
      rewrite Ep. assert (Hsk2 : skipn ((cnt + 1) * m) (w_cells w) = skipn m rem).
      { unfold rem. rewrite skipn_skipn_add. f_equal. lia. }
      destruct (existsb snd (skipn m rem)) eqn:Ex; cbn [negb andb orb].
      + (* not the last part *)
        assert (Hc2 : cnt + 1 < k).
        { destruct (Nat.lt_ge_cases (cnt + 1) k) as [H|H]; [exact H|]. exfalso. rewrite <- Hsk2, skipn_all2 in Ex by nia. discriminate. }
        assert (Ew2 : winc (log2ceil (k + 1)) cnt = cnt + 1).
        { apply winc_small. pose proof (log2ceil_ge (k + 1)). lia. }
        assert (Hm : mark (w_side w) (w_last w) (firstn m rem :: parts (k - (cnt + 1)) m (skipn m rem)) =
                     mk_axw (firstn m rem) (w_side w) false :: mark (w_side w) (w_last w) (parts (k - (cnt + 1)) m (skipn m rem))).
        { apply mark_cons, parts_ne. lia. }
        rewrite Hm. rewrite ?andb_false_r. cbn [andb negb]. rewrite ?andb_false_r.
        destruct (rz_ord i); cbn [andb orb negb flat_map app].
        * rewrite Ew2, Hsk2, app_nil_r. auto.
        * fold rem. rewrite Ep, Hm, app_nil_r. auto.
      + cbn [mark]. rewrite !andb_true_r.
        destruct (rz_ord i), (rz_vld i); cbn [andb orb negb flat_map app].
        * rewrite Nat.mul_0_l, Nat.sub_0_r. cbn [skipn]. rewrite app_nil_r. repeat split; try lia; try exact Hw.
        * repeat split; lia.
        * fold rem. rewrite Ep. cbn [mark]. auto.
        * fold rem. rewrite Ep. cbn [mark]. auto.
    - subst cnt. cbn [andb negb]. rewrite ?andb_false_r. cbn [flat_map app].
      destruct (rz_vld i); cbn [andb flat_map app]; rewrite ?Nat.mul_0_l, ?Nat.sub_0_r; cbn [skipn]; rewrite ?app_nil_r; auto.
  Qed.

  Lemma adn_run w0 is : Forall (fun i : rz_in S A => length (w_cells (rz_word i)) = k * m) is ->
    let t := map rz_obs (trace (adn_step x k m) (adn_init w0) is) in
    dP (final (adn_step x k m) (adn_init w0) is) /\
    flat_map (unpack k m) (accepted t) = delivered t ++ dcont (final (adn_step x k m) (adn_init w0) is).
  Proof.
    intros Hw t.
    pose proof (conv_run (adn_step x k m) rz_obs (unpack k m) (fun w => [w]) dP
                  (fun c => length (w_cells (rz_word (fst c))) = k * m) dcont adn_step_law (adn_init w0) is) as H.
    destruct H as [H1 H2].
    - unfold dP, adn_init. cbn. auto.
    - intros [i o] Hin. unfold trace in Hin. apply in_combine_l in Hin. rewrite Forall_forall in Hw. now apply Hw.
    - fold t in H2. cbn [dcont adn_init ad_reg occ app] in H2. split; [exact H1|].
      rewrite H2. f_equal. clear. induction (delivered t) as [|w l IH]; [reflexivity|]. cbn. now rewrite IH.
  Qed.

  Lemma parts_length j cells : length (parts j m cells : list (list (A * bool))) <= j.
  Proof.
    revert cells. induction j as [|j IH]; intros cells; [reflexivity|]. cbn [parts length].
    destruct (existsb snd (skipn m cells)); cbn [length]; [specialize (IH (skipn m cells)); lia|lia].
  Qed.
  Lemma mark_length (s : S) l (ps : list (list (A * bool))) : length (mark s l ps) = length ps.
  Proof. induction ps as [|p ps IH]; [reflexivity|]. cbn [mark]. destruct ps; [reflexivity|]. cbn [length] in *. now rewrite IH. Qed.

  Lemma adn_law w0 is : Forall (fun i : rz_in S A => length (w_cells (rz_word i)) = k * m) is ->
    let t := map rz_obs (trace (adn_step x k m) (adn_init w0) is) in
    exists inside, flat_map (unpack k m) (accepted t) = delivered t ++ inside /\ length inside <= k /\
      (forall i, rz_ovld (snd (adn_step x k m (final (adn_step x k m) (adn_init w0) is) i)) = true <-> inside <> []).
  Proof.
    intros Hw t. destruct (adn_run w0 is Hw) as [HP E]. eexists. split; [exact E|].
    unfold dcont. destruct HP as (_ & Hc & Ho). set (s := final _ _ _) in *. split.
    - destruct (occ (ad_reg s)); [|cbn; lia]. cbv zeta. rewrite mark_length.
      pose proof (parts_length (k - ad_cnt s) (skipn (ad_cnt s * m) (w_cells (sdat (ad_reg s))))). lia.
    - intros i. unfold adn_step. cbn [snd rz_ovld]. destruct (occ (ad_reg s)); [|split; congruence].
      split; [intros _|reflexivity]. apply mark_ne, parts_ne. lia.
  Qed.

  Lemma filter_none (l : list (A * bool)) : existsb snd l = false -> filter snd l = [].
  Proof.
    induction l as [|[a b] l IH]; [reflexivity|]. cbn [existsb filter snd]. intros H. apply orb_false_iff in H as [-> H].
    now apply IH.
  Qed.
  Lemma unpack_events_aux (s : S) l j (cells : list (A * bool)) : 1 <= j -> length cells = j * m ->
    flat_map events (mark s l (parts j m cells)) = map (fun c => Byte (fst c)) (filter snd cells) ++ (if l then [End s] else []).
  Proof.
    revert cells. induction j as [|j IH]; intros cells Hj Hl; [lia|]. cbn [parts].
    assert (Ef : filter snd cells = filter snd (firstn m cells) ++ filter snd (skipn m cells)) by (rewrite <- filter_app, firstn_skipn; reflexivity).
    rewrite Ef, map_app. clear Ef.
    destruct (existsb snd (skipn m cells)) eqn:E.
    - assert (1 <= j).
      { destruct j; [|lia]. rewrite skipn_all2 in E by lia. discriminate. }
      assert (Hm : mark s l (firstn m cells :: parts j m (skipn m cells)) =
                   mk_axw (firstn m cells) s false :: mark s l (parts j m (skipn m cells))).
      { apply mark_cons, parts_ne. exact H. }
      rewrite Hm. cbn [flat_map]. rewrite IH; [|exact H|rewrite skipn_length; lia].
      unfold events at 1. cbn [w_cells w_last]. now rewrite app_nil_r, app_assoc.
    - rewrite (filter_none _ E). cbn [mark flat_map map]. unfold events. cbn [w_cells w_last w_side]. now rewrite !app_nil_r.
  Qed.
  Lemma unpack_events (w : word) : length (w_cells w) = k * m -> flat_map events (unpack k m w) = events w.
  Proof. intros H. unfold unpack. now rewrite unpack_events_aux. Qed.

  Lemma adn_events w0 is : Forall (fun i : rz_in S A => length (w_cells (rz_word i)) = k * m) is ->
    let t := map rz_obs (trace (adn_step x k m) (adn_init w0) is) in
    exists inside, flat_map events (accepted t) = flat_map events (delivered t) ++ flat_map events inside /\ length inside <= k.
  Proof.
    intros Hw t. destruct (adn_law w0 is Hw) as (inside & E & Hl & _). fold t in E. exists inside. split; [|exact Hl].
    rewrite <- flat_map_app, <- E.
    assert (Ha : Forall (fun w : word => length (w_cells w) = k * m) (accepted t)).
    { unfold t, trace. set (os := outs _ _ _). clearbody os. clear -Hw. revert os.
      induction Hw as [|i is H _ IH]; intros os; [constructor|]. destruct os as [|o os]; [constructor|]. cbn [combine map].
      rewrite accepted_cons. apply Forall_app. split; [|apply IH]. unfold rz_obs. cbn [in_vld in_rd in_data fst snd].
      destruct (rz_vld i && rz_rd o); [|constructor]. constructor; [exact H|constructor]. }
    clear -Ha Hk. induction Ha as [|w l H _ IH]; [reflexivity|]. cbn [flat_map]. rewrite flat_map_app, <- IH. f_equal.
    symmetry. now apply unpack_events.
  Qed.
End Down.
