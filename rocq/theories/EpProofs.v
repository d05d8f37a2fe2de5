From Verif Require Import Base BaseFacts EpModel EpSpec.

Lemma find_uniq {A} (f : A -> bool) l x : In x l -> f x = true -> (forall y, In y l -> f y = true -> y = x) -> find f l = Some x.
Proof.
  intros Hi Hx Hu. destruct (find f l) as [y|] eqn:E.
  - apply find_some in E. destruct E as [E1 E2]. f_equal. apply Hu; assumption.
  - rewrite (find_none _ _ E x Hi) in Hx. discriminate.
Qed.
Lemma find_all_false {A} (f : A -> bool) l : (forall y, In y l -> f y = false) -> find f l = None.
Proof. intros H. destruct (find f l) as [y|] eqn:E; [|reflexivity]. apply find_some in E. destruct E as [E1 E2]. rewrite (H y E1) in E2. discriminate. Qed.
Lemma map_ext_seq {A} (f : nat -> A) (l : list A) d s : (forall i, i < length l -> f (s + i) = nth i l d) -> map f (seq s (length l)) = l.
Proof.
  revert s. induction l as [|x l IH]; intros s H; [reflexivity|]. cbn [length seq map]. f_equal.
  - rewrite <- (Nat.add_0_r s). apply (H 0). cbn. lia.
  - apply IH. intros i Hi. rewrite Nat.add_succ_l, <- Nat.add_succ_r. apply (H (S i)). cbn. lia.
Qed.
Lemma nth_firstn_lt {A} (l : list A) n i d : i < n -> nth i (firstn n l) d = nth i l d.
Proof. revert n i. induction l as [|x l IH]; intros [|n] i H; try lia; [destruct i; reflexivity|]. destruct i; [reflexivity|]. cbn. apply IH. lia. Qed.
Lemma nth_skipn_add {A} (l : list A) n i d : nth i (skipn n l) d = nth (n + i) l d.
Proof. revert l. induction n as [|n IH]; intros l; [reflexivity|]. destruct l; [destruct i; reflexivity|]. cbn. apply IH. Qed.

Section Core.
  Variable c : epcfg.
  Hypothesis Hc : cfg_ok c.
  Notation WU := (e_wu c). Notation ST := (e_step c). Notation DW := (e_wu c * e_step c). Notation NB := (length (e_brams c)).

  Lemma wu_pos : 0 < WU. Proof. destruct (ok_wu c Hc) as [k ->]. apply pow2_pos. Qed.
  Lemma st_pos : 0 < ST. Proof. destruct (ok_step c Hc) as [k ->]. apply pow2_pos. Qed.
  Lemma dw_pos : 0 < DW. Proof. pose proof wu_pos. pose proof st_pos. nia. Qed.
  Lemma align_pow : 2 ^ ep_align c = WU.
  Proof.
    unfold ep_align. destruct (ok_wu c Hc) as [k ->]. destruct k as [|k]; [reflexivity|]. destruct (Nat.eqb_spec (2 ^ S k) 1) as [E|_]; [cbn in E; pose proof (pow2_pos k); lia|].
    f_equal. unfold log2ceil. destruct (Nat.leb_spec (2 ^ S k - 1) 1) as [L|L].
    - destruct k as [|k]; [reflexivity|]. cbn in L. pose proof (pow2_pos k). lia.
    - apply Nat.log2_up_unique; [lia|]. cbn [pred]. destruct k as [|k]; [cbn in L; lia|]. cbn [Nat.pow] in *. pose proof (pow2_pos k). lia.
  Qed.
  Lemma bl_pow s : bit_length (2 ^ s - 1) = s.
  Proof.
    unfold bit_length. destruct s as [|s]; [reflexivity|]. pose proof (pow2_pos s). destruct (Nat.eqb_spec (2 ^ S s - 1) 0) as [E|_]; [cbn in E; lia|].
    replace (2 ^ S s - 1) with (Nat.pred (2 ^ S s)) by lia. rewrite Nat.log2_pred_pow2 by lia. reflexivity.
  Qed.
  Lemma bl_lt n : n < 2 ^ bit_length n.
  Proof. unfold bit_length. destruct (Nat.eqb_spec n 0); [subst; cbn; lia|]. destruct (Nat.log2_spec n ltac:(lia)). assumption. Qed.

  Section Arr.
    Variables b n a : nat.
    Hypothesis Hin : In (b, n) (e_brams c).
    Hypothesis Ha : a < 2 ^ e_aw c.
    Lemma al_facts : ar_aligned c (b, n) = true -> 2 ^ bit_length (n - 1) = n /\ b mod (n * WU) = 0.
    Proof.
      unfold ar_aligned, e_dw, is_pow2. cbn [fst snd]. intros [H1 H2]%andb_prop. apply Nat.eqb_eq in H1, H2.
      destruct (ok_mem c Hc b n Hin) as [Hn _]. pose proof wu_pos. pose proof st_pos. split.
      - destruct (ok_wu c Hc) as [k Ek]. destruct (ok_step c Hc) as [j Ej]. rewrite Ek, Ej, <- Nat.pow_add_r in H2. set (L := Nat.log2 (n * 2 ^ (k + j))) in *.
        assert (k + j <= L). { apply Nat.pow_le_mono_r_iff with 2; [lia|]. rewrite H2. pose proof (pow2_pos (k + j)). nia. }
        assert (n = 2 ^ (L - (k + j))) as En. { apply Nat.mul_cancel_r with (2 ^ (k + j)); [pose proof (pow2_pos (k + j)); lia|]. rewrite <- H2, <- Nat.pow_add_r. f_equal. lia. }
        rewrite En at 1. rewrite bl_pow. symmetry. exact En.
      - rewrite Nat.mul_assoc, Nat.mul_mod_distr_r in H1 by nia. apply Nat.eq_mul_0 in H1. lia.
    Qed.
    Lemma hit_ok : ar_hit c (b, n) a = (b <=? a) && (a <? b + n * WU).
    Proof.
      unfold ar_hit. cbn [fst snd]. destruct (ar_aligned c (b, n)) eqn:E; [|reflexivity]. destruct (al_facts E) as [Hp Hm].
      destruct (ok_mem c Hc b n Hin) as [Hn [_ [Hr _]]]. pose proof wu_pos.
      assert (2 ^ (bit_length (n - 1) + ep_align c) = n * WU) as EL by (rewrite Nat.pow_add_r, Hp, align_pow; reflexivity). set (L := bit_length (n - 1) + ep_align c) in *.
      apply Nat.div_exact in Hm; [|nia]. destruct (Nat.eqb_spec (e_aw c - L) 0) as [E0|E0].
      - assert (2 ^ e_aw c <= n * WU) by (rewrite <- EL; apply Nat.pow_le_mono_r; lia). assert (b = 0) by lia. subst b. symmetry. apply andb_true_intro. split; [reflexivity|apply Nat.ltb_lt; lia].
      - rewrite EL. pose proof (Nat.div_mod a (n * WU) ltac:(nia)) as Ea. pose proof (Nat.mod_upper_bound a (n * WU) ltac:(nia)).
        destruct (Nat.eqb_spec (a / (n * WU)) (b / (n * WU))) as [Eq|Eq]; symmetry.
        + rewrite Eq in Ea. apply andb_true_intro. split; [apply Nat.leb_le; lia|apply Nat.ltb_lt; lia].
        + apply andb_false_iff. destruct (Nat.lt_trichotomy (a / (n * WU)) (b / (n * WU))) as [Q|[Q|Q]]; [left; apply Nat.leb_gt|contradiction|right; apply Nat.ltb_ge]; nia.
    Qed.
    Lemma idx_ok : b <= a < b + n * WU -> ar_idx c (b, n) a = (a - b) / WU.
    Proof.
      intros H. unfold ar_idx. cbn [fst snd]. rewrite align_pow. destruct (ok_mem c Hc b n Hin) as [Hn [Hb [Hr _]]]. pose proof wu_pos.
      assert ((a - b) / WU < n) as Hlt by (apply Nat.div_lt_upper_bound; nia).
      destruct (Nat.eqb_spec (bit_length (n - 1)) 0) as [E0|E0].
      { unfold bit_length in E0. destruct (Nat.eqb_spec (n - 1) 0); [|discriminate]. remember ((a - b) / WU) as z eqn:Ez. clear Ez. lia. }
      destruct (ar_aligned c (b, n)) eqn:E.
      - destruct (al_facts E) as [Hp Hm]. rewrite Hp. apply Nat.div_exact in Hm; [|nia]. set (q := b / (n * WU)) in *.
        assert (q * n * WU = b) as Eq by (rewrite Hm; ring). replace a with (a - b + (q * n) * WU) at 1 by lia. rewrite Nat.div_add by lia. rewrite Nat.mod_add by lia. apply Nat.mod_small, Hlt.
      - replace (a + 2 ^ e_aw c - b) with (a - b + 1 * 2 ^ e_aw c) by lia. rewrite Nat.mod_add by (pose proof (pow2_pos (e_aw c)); lia). rewrite (Nat.mod_small (a - b)) by lia.
        apply Nat.mod_small. pose proof (bl_lt (n - 1)). lia.
    Qed.
  End Arr.

  Lemma find_mem_ok a : forall l k0, match find_mem c l k0 a with
    | Some (k, x) => exists j, k = k0 + j /\ j < length l /\ fst (nth j l (0, 0)) <= a < fst (nth j l (0, 0)) + snd (nth j l (0, 0)) * WU /\ x = (a - fst (nth j l (0, 0))) / WU
    | None => forall j, j < length l -> ~ (fst (nth j l (0, 0)) <= a < fst (nth j l (0, 0)) + snd (nth j l (0, 0)) * WU)
    end.
  Proof.
    induction l as [|[b n] l IH]; intros k0; cbn [find_mem]; [cbn; lia|].
    destruct (Nat.leb_spec b a), (Nat.ltb_spec a (b + n * WU)); cbn [andb]; [exists 0; cbn; repeat split; lia| | |];
      (specialize (IH (S k0)); destruct (find_mem c l (S k0) a) as [[k x]|]; [destruct IH as [j [E1 [E2 E3]]]; exists (S j); cbn [nth length]; repeat split; try lia; apply E3|
        intros [|j] Hj; cbn [nth length fst snd] in *; [lia|apply IH; lia]]).
  Qed.
  Lemma bram_in j : j < NB -> In (bram c j) (e_brams c). Proof. apply nth_In. Qed.
  Lemma hits a : a < 2 ^ e_aw c ->
    match mem_at c a with
    | Some (k, x) => k < NB /\ (forall j, j < NB -> ar_hit c (bram c j) a = (j =? k)) /\ (forall j, j < NB -> ar_in c (bram c j) a = (j =? k)) /\ ar_idx c (bram c k) a = x
    | None => (forall j, j < NB -> ar_hit c (bram c j) a = false) /\ (forall j, j < NB -> ar_in c (bram c j) a = false)
    end.
  Proof.
    intros Ha. pose proof (find_mem_ok a (e_brams c) 0) as H. unfold mem_at. destruct (find_mem c (e_brams c) 0 a) as [[k x]|].
    - destruct H as [j [E [Hj [Hin Hx]]]]. cbn in E. subst j. fold (bram c k) in *.
      assert (forall j, j < NB -> (fst (bram c j) <=? a) && (a <? fst (bram c j) + snd (bram c j) * WU) = (j =? k)) as Hu.
      { intros j Hj'. destruct (Nat.eqb_spec j k) as [-> |Hne]; [apply andb_true_intro; split; [apply Nat.leb_le|apply Nat.ltb_lt]; lia|].
        apply not_true_is_false. intros [Q1 Q2]%andb_prop. apply Nat.leb_le in Q1. apply Nat.ltb_lt in Q2. apply Hne.
        pose proof (ok_mems c Hc j k a Hj' Hj) as Hd. unfold bram in *. destruct (nth j (e_brams c) (0, 0)), (nth k (e_brams c) (0, 0)). cbn in *. apply Hd; lia. }
      split; [exact Hj|]. split; [|split].
      + intros j Hj'. rewrite (surjective_pairing (bram c j)), hit_ok; [apply Hu, Hj'|rewrite <- surjective_pairing; apply bram_in, Hj'|exact Ha].
      + exact Hu.
      + rewrite (surjective_pairing (bram c k)), idx_ok; [symmetry; exact Hx|rewrite <- surjective_pairing; apply bram_in, Hj|exact Ha|exact Hin].
    - assert (forall j, j < NB -> (fst (bram c j) <=? a) && (a <? fst (bram c j) + snd (bram c j) * WU) = false) as Hu.
      { intros j Hj. apply not_true_is_false. intros [Q1 Q2]%andb_prop. apply Nat.leb_le in Q1. apply Nat.ltb_lt in Q2. apply (H j Hj). fold (bram c j). lia. }
      split; [|exact Hu]. intros j Hj. rewrite (surjective_pairing (bram c j)), hit_ok; [apply Hu, Hj|rewrite <- surjective_pairing; apply bram_in, Hj|exact Ha].
  Qed.
  Lemma find_hit (h : nat -> bool) : match find h (brams c) with Some k => k < NB /\ h k = true | None => forall j, j < NB -> h j = false end.
  Proof.
    destruct (find h (brams c)) as [k|] eqn:E.
    - apply find_some in E. destruct E as [E1 E2]. apply in_seq in E1. split; [lia|exact E2].
    - intros j Hj. apply (find_none _ _ E). apply in_seq. lia.
  Qed.
  Lemma find_hot (h : nat -> bool) k : k < NB -> (forall j, j < NB -> h j = (j =? k)) -> find h (brams c) = Some k.
  Proof.
    intros Hk H. apply find_uniq; [apply in_seq; lia|rewrite H, Nat.eqb_refl by exact Hk; reflexivity|].
    intros y Hy E. apply in_seq in Hy. rewrite H in E by lia. apply Nat.eqb_eq, E.
  Qed.
  Lemma find_cold (h : nat -> bool) : (forall j, j < NB -> h j = false) -> find h (brams c) = None.
  Proof. intros H. apply find_all_false. intros y Hy. apply in_seq in Hy. apply H. lia. Qed.
  Lemma exists_find (h : nat -> bool) : existsb h (brams c) = match find h (brams c) with Some _ => true | None => false end.
  Proof. induction (brams c) as [|x l IH]; [reflexivity|]. cbn. destruct (h x); [reflexivity|exact IH]. Qed.

  (** * registers *)
  Lemma in_field_dec f p : in_field_b c f p = true <-> in_field c f p.
  Proof. unfold in_field_b, in_field. rewrite andb_true_iff, Nat.leb_le, Nat.ltb_lt. tauto. Qed.
  Lemma bit_in din f p : f < e_nf c -> in_field c f p -> bit_at c din p = Some (nth (p - e_base c f) (din f) false).
  Proof.
    intros Hf Hp. unfold bit_at. rewrite (find_uniq _ _ f); [reflexivity|apply in_seq; lia|apply in_field_dec, Hp|].
    intros g Hg E. apply in_seq in Hg. apply in_field_dec in E. apply (ok_fields c Hc g f p); [lia|exact Hf|exact E|exact Hp].
  Qed.
  Lemma bit_out din p : (forall f, f < e_nf c -> ~ in_field c f p) -> bit_at c din p = None.
  Proof.
    intros H. unfold bit_at. rewrite find_all_false; [reflexivity|]. intros f Hf. apply in_seq in Hf. apply not_true_is_false. intros E. apply in_field_dec in E. apply (H f); [lia|exact E].
  Qed.
  Lemma parts_le l : forall s e, parts_ok c s e l -> s <= e.
  Proof. induction l as [|p l IH]; intros s e; cbn [parts_ok]; [lia|]. intros [_ [H1 [H2 _]]]. apply IH in H2. lia. Qed.
  Lemma parts_val din l : din_ok c din -> forall s e, parts_ok c s e l -> flat_map (part_val c din) l = map (bit_at c din) (seq s (e - s)).
  Proof.
    intros Hd. induction l as [|p l IH]; intros s e; cbn [parts_ok].
    - intros ->. rewrite Nat.sub_diag. reflexivity.
    - intros [Es [Hlt [Hl Hf]]]. pose proof (parts_le _ _ _ Hl). cbn [flat_map]. rewrite (IH _ _ Hl). replace (e - s) with (pt_e p - s + (e - pt_e p)) by lia.
      rewrite seq_app, map_app. replace (s + (pt_e p - s)) with (pt_e p) by lia. f_equal. unfold part_val. rewrite Es. destruct (pt_f p) as [f|].
      + destruct Hf as [Hn [H1 H2]]. set (v := map Some _). assert (length v = pt_e p - s) as Lv.
        { unfold v. rewrite map_length, firstn_length, skipn_length, (Hd f Hn). lia. }
        rewrite <- Lv. symmetry. apply map_ext_seq with (d := Some false). intros i Hi. rewrite Lv in Hi. rewrite (bit_in din f) by (try exact Hn; unfold in_field; lia).
        unfold v. rewrite (map_nth Some), nth_firstn_lt by exact Hi. rewrite nth_skipn_add. do 2 f_equal. lia.
      + replace (pt_e p - s) with (length (@repeat (option bool) None (pt_e p - s))) at 2 by apply repeat_length. symmetry. apply map_ext_seq with (d := None). intros i Hi. rewrite repeat_length in Hi.
        rewrite nth_repeat. apply bit_out. intros f Hf'. apply Hf; [exact Hf'|lia].
  Qed.
  Lemma parts_in l p : forall s e, parts_ok c s e l -> In p l -> s <= pt_s p /\ pt_s p < pt_e p /\ pt_e p <= e.
  Proof.
    induction l as [|q l IH]; intros s e; cbn [parts_ok In]; [tauto|]. intros [E [H1 [H2 _]]] [-> |H]; [pose proof (parts_le _ _ _ H2); lia|]. destruct (IH _ _ H2 H). lia.
  Qed.
  Lemma parts_find l f x : f < e_nf c -> in_field c f x -> forall s e, parts_ok c s e l -> s <= x < e -> exists p, In p l /\ pt_f p = Some f.
  Proof.
    intros Hf Hx. induction l as [|q l IH]; intros s e; cbn [parts_ok]; [lia|]. intros [E [H1 [H2 H3]]] Hr. destruct (Nat.lt_ge_cases x (pt_e q)) as [L|L].
    - exists q. split; [left; reflexivity|]. destruct (pt_f q) as [g|].
      + f_equal. apply (ok_fields c Hc g f x); [apply H3|exact Hf|unfold in_field; lia|exact Hx].
      + destruct (H3 f x Hf ltac:(lia) Hx).
    - destruct (IH _ _ H2 ltac:(lia)) as [p [Hp Ep]]. exists p. split; [right; exact Hp|exact Ep].
  Qed.
  Lemma word_of a : reg_word c a = true <-> a mod WU = 0 /\ exists f p, f < e_nf c /\ in_field c f p /\ p / DW * WU = a.
  Proof.
    pose proof wu_pos. pose proof st_pos. pose proof dw_pos. unfold reg_word. rewrite andb_true_iff, Nat.eqb_eq, existsb_exists. split.
    - intros [Hm [f [Hf E]]]. apply in_seq in Hf. apply existsb_exists in E. destruct E as [p [Hp E]]. apply in_seq in Hp. apply in_field_dec in E.
      split; [exact Hm|]. exists f, p. split; [lia|]. split; [exact E|]. apply Nat.div_exact in Hm; [|lia]. set (q := a / WU) in *.
      enough (p / DW = q) by nia. symmetry. apply Nat.div_unique with (p - q * DW); nia.
    - intros [Hm [f [p [Hf [Hp E]]]]]. split; [exact Hm|]. exists f. split; [apply in_seq; lia|]. apply existsb_exists. exists p. split; [|apply in_field_dec, Hp].
      apply in_seq. pose proof (Nat.div_mod p DW ltac:(lia)). pose proof (Nat.mod_upper_bound p DW ltac:(lia)). set (q := p / DW) in *. nia.
  Qed.
  Lemma read_ok din a : din_ok c din -> read_direct c din a = if reg_word c a then Some (map (bit_at c din) (seq (a * ST) DW)) else None.
  Proof.
    intros Hd. pose proof wu_pos. pose proof st_pos. unfold read_direct. destruct (find _ (e_words c)) as [[w l]|] eqn:E.
    - apply find_some in E. cbn [fst] in E. destruct E as [Hin E]. apply Nat.eqb_eq in E.
      assert (reg_word c a = true) as ->.
      { apply word_of. split; [rewrite <- E; apply Nat.mod_mul; lia|]. destruct (ok_used c Hc w l Hin) as [f [p [Hf [Hp Ew]]]]. exists f, p. rewrite Ew. auto. }
      cbn [snd]. f_equal. rewrite (parts_val din l Hd _ _ (ok_parts c Hc w l Hin)). f_equal. rewrite <- E. f_equal; nia.
    - destruct (reg_word c a) eqn:R; [|reflexivity]. apply word_of in R. destruct R as [Hm [f [p [Hf [Hp Ew]]]]].
      destruct (ok_cover c Hc f p Hf Hp) as [l Hl]. pose proof (find_none _ _ E _ Hl) as Q. cbn [fst] in Q. apply Nat.eqb_neq in Q. contradiction.
  Qed.
  Lemma write_ok en a d f : f < e_nf c -> write_direct c en a d f = if en then wr_field c a d f else None.
  Proof.
    intros Hf. pose proof dw_pos. unfold write_direct, wr_field. set (ps := flat_map _ (e_words c)).
    assert (forall w p, In (w, p) ps <-> exists l, In (w, l) (e_words c) /\ In p l) as Hps.
    { intros w p. unfold ps. rewrite in_flat_map. split.
      - intros [[w' l] [H1 H2]]. apply in_map_iff in H2. destruct H2 as [p' [E2 H3]]. cbn [fst snd] in *. injection E2 as -> ->. exists l. auto.
      - intros [l [H1 H2]]. exists (w, l). split; [exact H1|]. cbn [fst snd]. apply in_map_iff. exists p. auto. }
    destruct (e_wr c f) eqn:Ew; [|destruct (find _ ps) as [[w p]|], en; reflexivity].
    pose proof (ok_wr c Hc f Hf Ew) as Hwid. assert (in_field c f (e_base c f)) as Hb by (unfold in_field; lia).
    destruct (find _ ps) as [[w p]|] eqn:E.
    - apply find_some in E. destruct E as [Hin Hp]. cbn [snd] in Hp. apply Hps in Hin. destruct Hin as [l [Hl Hpl]]. unfold is_part_of in Hp.
      destruct (pt_f p) as [g|] eqn:Eg; [|discriminate]. apply Nat.eqb_eq in Hp. subst g. destruct (ok_whole c Hc f w l p Ew Hl Hpl Eg) as [E1 E2].
      destruct (parts_in l p _ _ (ok_parts c Hc w l Hl) Hpl) as [P1 [P2 P3]]. rewrite E1, E2 in *.
      assert (e_base c f / DW = w) as Eq. { symmetry. apply Nat.div_unique with (e_base c f - w * DW); nia. }
      rewrite Eq. cbn [andb]. rewrite (Nat.eqb_sym a). destruct en; [|reflexivity]. cbn [andb]. destruct (w * WU =? a); [|reflexivity].
      do 2 f_equal; [lia|]. f_equal. unfold e_dw. pose proof (Nat.div_mod (e_base c f) DW ltac:(lia)) as Hdm. rewrite Eq in Hdm. nia.
    - exfalso. destruct (ok_cover c Hc f _ Hf Hb) as [l Hl]. pose proof (ok_parts c Hc _ l Hl) as Hp.
      pose proof (Nat.div_mod (e_base c f) DW ltac:(lia)). pose proof (Nat.mod_upper_bound (e_base c f) DW ltac:(lia)).
      destruct (parts_find l f _ Hf Hb _ _ Hp ltac:(nia)) as [p [Hpl Ep]].
      pose proof (find_none _ _ E (e_base c f / DW, p)) as Q. cbn [snd] in Q. unfold is_part_of in Q. rewrite Ep, Nat.eqb_refl in Q. discriminate Q. apply Hps. exists l. auto.
  Qed.
  Lemma mem_not_reg a k x : a < 2 ^ e_aw c -> mem_at c a = Some (k, x) -> reg_word c a = false.
  Proof.
    intros Ha E. apply not_true_is_false. intros R. apply word_of in R. destruct R as [Hm [f [p [Hf [Hp Ew]]]]].
    pose proof (find_mem_ok a (e_brams c) 0) as H. unfold mem_at in E. rewrite E in H. destruct H as [j [_ [Hj [Hin _]]]].
    pose proof (bram_in j Hj) as Hb. unfold bram in Hb. destruct (nth j (e_brams c) (0, 0)) as [b n]. cbn [fst snd] in *.
    destruct (ok_mem c Hc b n Hb) as [Hn [Hbm [_ Hd]]]. specialize (Hd f p Hf Hp). pose proof wu_pos. pose proof st_pos. pose proof dw_pos.
    pose proof (Nat.div_mod p DW ltac:(lia)). pose proof (Nat.mod_upper_bound p DW ltac:(lia)). set (q := p / DW) in *. set (r := p mod DW) in *.
    apply Nat.div_exact in Hbm; [|lia]. set (bq := b / WU) in *. assert (bq <= q < bq + n) by nia. nia.
  Qed.
  (** memories *)
  Definition rep (m : mems) (sm : nat -> nat -> bits) : Prop := forall k y, k < NB -> m_mem m k y = sm k y.
  Notation rd_mem sm a := (match mem_at c a with Some (k, y) => Some (map Some (sm k y)) | None => @None xbits end).
  (** a write of [d] to [a] if [w] *)
  Lemma rep_step m sm p (w : bool) a d (h : nat -> bool) : rep m sm -> (w = true -> a < 2 ^ e_aw c) ->
    (h = (fun k => ar_hit c (bram c k) a) \/ h = (fun k => ar_in c (bram c k) a)) ->
    (forall k, k < NB -> mp_en (p k) && mp_we (p k) = w && h k) ->
    (forall k, k < NB -> w && h k = true -> mp_addr (p k) = ar_idx c (bram c k) a /\ mp_din (p k) = d) ->
    rep (mems_step m p) (if w then wr_mem c sm a d else sm).
  Proof.
    intros Hr Ha Hh H1 H2 k y Hk. cbn [mems_step m_mem]. rewrite (H1 k Hk). destruct w; cbn [andb]; [|apply Hr, Hk].
    pose proof (hits a (Ha eq_refl)) as Hx. unfold wr_mem. destruct (mem_at c a) as [[k0 x]|].
    - destruct Hx as [Hk0 [Hx1 [Hx2 Hx3]]]. assert (h k = (k =? k0)) as Ehk by (destruct Hh as [-> | ->]; [apply Hx1|apply Hx2]; exact Hk). rewrite Ehk.
      destruct (Nat.eqb_spec k k0) as [-> |Hne]; cbn [andb]; [|apply Hr, Hk]. destruct (H2 k0 Hk) as [E1 E2]; [rewrite Ehk; reflexivity|].
      rewrite E1, E2, Hx3. unfold upd. destruct (y =? x); [reflexivity|apply Hr, Hk].
    - assert (h k = false) as -> by (destruct Hh as [-> | ->]; [apply Hx|apply Hx]; exact Hk). apply Hr, Hk.
  Qed.
  (** the value read from the memory at [a], selected by [h] *)
  Lemma rd_step m sm p a (h : nat -> bool) (r : bool) : rep m sm -> a < 2 ^ e_aw c -> r = true ->
    (h = (fun k => ar_hit c (bram c k) a) \/ h = (fun k => ar_in c (bram c k) a)) ->
    (forall k, k < NB -> h k = true -> mp_en (p k) = r /\ mp_addr (p k) = ar_idx c (bram c k) a) ->
    match find h (brams c) with
    | Some k => k < NB /\ exists x, mem_at c a = Some (k, x) /\ m_dout (mems_step m p) k = Some (sm k x)
    | None => mem_at c a = None
    end.
  Proof.
    intros Hr Ha -> Hh Hp. pose proof (hits a Ha) as Hx. destruct (mem_at c a) as [[k x]|].
    - destruct Hx as [Hk [Hx1 [Hx2 Hx3]]]. assert (forall j, j < NB -> h j = (j =? k)) as Eh by (intros j Hj; destruct Hh as [-> | ->]; [apply Hx1|apply Hx2]; exact Hj).
      rewrite (find_hot h k Hk Eh). split; [exact Hk|]. exists x. split; [reflexivity|]. destruct (Hp k Hk) as [P1 P2]; [rewrite Eh, Nat.eqb_refl by exact Hk; reflexivity|].
      cbn [mems_step m_dout]. rewrite P1, P2, Hx3, (Hr k x Hk). reflexivity.
    - rewrite find_cold; [reflexivity|]. intros j Hj. destruct Hh as [-> | ->]; [apply Hx|apply Hx]; exact Hj.
  Qed.
  Lemma fields_ok (w : bool) a d : fields_get c (if w then Some (a, d) else None) (write_direct c w a d).
  Proof. intros f Hf. rewrite (write_ok w a d f Hf). destruct w; reflexivity. Qed.

  (** * Mi32Endpoint *)
  Lemma me_run is : forall s sm last, rep (me_m s) sm -> Forall (fun i => mi_addr i < 2 ^ e_aw c /\ din_ok c (mi_din i)) is ->
    match last with
    | Some (a, want) => me_rdy s = in_space c a /\ agrees want (if me_ix s <? NB then xdata c (m_dout (me_m s) (me_ix s)) else me_reg s)
    | None => me_rdy s = false
    end -> me_law c sm last (trace (me_step c) s is).
  Proof.
    induction is as [|i is IH]; intros s sm last Hr HF Hl; [exact I|]. inversion_clear HF as [|? ? [Ha Hd] HF']. rewrite trace_cons. cbn [me_law fst snd].
    split; [reflexivity|]. split.
    { cbn [me_step snd mo_drd]. destruct last as [[a want]|]; [|rewrite Hl; reflexivity]. destruct Hl as [-> Hw]. destruct (in_space c a); [split; [reflexivity|exact Hw]|reflexivity]. }
    split; [apply (fields_ok (mi_wr i))|]. apply IH; [|exact HF'|].
    - cbn [me_step fst me_m]. apply rep_step with (h := fun k => ar_hit c (bram c k) (mi_addr i)); [exact Hr|intros _; exact Ha|left; reflexivity| |]; cbn [mp_en mp_we mp_addr mp_din].
      + intros k _. destruct (mi_rd i), (mi_wr i), (ar_hit c (bram c k) (mi_addr i)); reflexivity.
      + intros k _ _. split; reflexivity.
    - destruct (mi_rd i) eqn:Er; [|cbn [me_step fst me_rdy]; rewrite Er; reflexivity]. split; [cbn [me_step fst me_rdy]; rewrite Er; reflexivity|].
      unfold rd_value. cbn [me_step fst me_ix me_m me_reg]. unfold ix_next.
      match goal with |- context [mems_step _ ?p] => set (port := p) end. pose proof (rd_step (me_m s) sm port (mi_addr i) (fun k => ar_hit c (bram c k) (mi_addr i)) true Hr Ha eq_refl (or_introl eq_refl)) as Hx.
      assert (forall k, k < NB -> ar_hit c (bram c k) (mi_addr i) = true -> mp_en (port k) = true /\ mp_addr (port k) = ar_idx c (bram c k) (mi_addr i)) as Hp.
      { intros k _ Hh. unfold port. cbn [mp_en mp_addr]. rewrite Er, Hh. split; reflexivity. }
      specialize (Hx Hp). rewrite Er, (read_ok _ (mi_addr i) Hd). destruct (find _ (brams c)) as [k|].
      + destruct Hx as [Hk [y [Em Ed]]]. rewrite (mem_not_reg _ k y Ha Em), Em, (proj2 (Nat.ltb_lt _ _) Hk), Ed. reflexivity.
      + rewrite Nat.ltb_irrefl, Hx. destruct (reg_word c (mi_addr i)); [reflexivity|exact I].
  Qed.
  (** * BramPortEndpoint *)
  Lemma be_run is : forall s sm last, rep (be_m s) sm -> Forall (fun i => bi_addr i < 2 ^ e_aw c /\ din_ok c (bi_din i)) is ->
    agrees last (if be_ix s <? NB then xdata c (m_dout (be_m s) (be_ix s)) else be_reg s) -> be_law c sm last (trace (be_step c) s is).
  Proof.
    induction is as [|i is IH]; intros s sm last Hr HF Hl; [exact I|]. inversion_clear HF as [|? ? [Ha Hd] HF']. rewrite trace_cons. cbn [be_law fst snd].
    split; [exact Hl|]. split; [apply (fields_ok (bi_en i && bi_we i))|]. apply IH; [|exact HF'|].
    - cbn [be_step fst be_m]. apply rep_step with (h := fun k => ar_hit c (bram c k) (bi_addr i)); [exact Hr|intros _; exact Ha|left; reflexivity| |]; cbn [mp_en mp_we mp_addr mp_din].
      + intros k _. destruct (bi_en i), (bi_we i), (ar_hit c (bram c k) (bi_addr i)); reflexivity.
      + intros k _ _. split; reflexivity.
    - destruct (bi_en i) eqn:Er; [|exact I].
      unfold rd_value. cbn [be_step fst be_ix be_m be_reg]. unfold ix_next.
      match goal with |- context [mems_step _ ?p] => set (port := p) end. pose proof (rd_step (be_m s) sm port (bi_addr i) (fun k => ar_hit c (bram c k) (bi_addr i)) true Hr Ha eq_refl (or_introl eq_refl)) as Hx.
      assert (forall k, k < NB -> ar_hit c (bram c k) (bi_addr i) = true -> mp_en (port k) = true /\ mp_addr (port k) = ar_idx c (bram c k) (bi_addr i)) as Hp.
      { intros k _ Hh. unfold port. cbn [mp_en mp_addr]. rewrite Er, Hh. split; reflexivity. }
      specialize (Hx Hp). rewrite Er, (read_ok _ (bi_addr i) Hd). destruct (find _ (brams c)) as [k|].
      + destruct Hx as [Hk [y [Em Ed]]]. rewrite (mem_not_reg _ k y Ha Em), Em, (proj2 (Nat.ltb_lt _ _) Hk), Ed. reflexivity.
      + rewrite Nat.ltb_irrefl, Hx. destruct (reg_word c (bi_addr i)); [reflexivity|exact I].
  Qed.
  (** * AvalonMmEndpoint *)
  Lemma av_run is : forall s sm last lastw, rep (av_m s) sm -> Forall (fun i => vi_addr i < 2 ^ e_aw c /\ din_ok c (vi_din i)) is ->
    match last with
    | Some (a, e) => av_req s = true /\ av_addr s = a /\ av_in s = in_space c a /\ (reg_word c a = false -> agrees e (match find (av_my s) (brams c) with Some k => xdata c (m_dout (av_m s) k) | None => repeat None (e_dw c) end))
    | None => av_req s = false
    end ->
    match lastw with Some a => av_wr s = true /\ av_in s = in_space c a | None => av_wr s = false end -> av_law c sm last lastw (trace (av_step c) s is).
  Proof.
    induction is as [|i is IH]; intros s sm last lastw Hr HF Hl Hw; [exact I|]. inversion_clear HF as [|? ? [Ha Hd] HF']. rewrite trace_cons. cbn [av_law fst snd].
    split; [reflexivity|]. split.
    { cbn [av_step snd vo_rd vo_ok]. destruct last as [[a e]|]; [|rewrite Hl; reflexivity]. destruct Hl as [-> [<- [-> He]]]. split; [reflexivity|].
      rewrite (read_ok _ _ Hd). destruct (reg_word c (av_addr s)); [reflexivity|apply He; reflexivity]. }
    split; [exact Hw|]. split; [apply (fields_ok (vi_wr i))|]. apply IH; [|exact HF'| |].
    - cbn [av_step fst av_m]. apply rep_step with (h := fun k => ar_in c (bram c k) (vi_addr i)); [exact Hr|intros _; exact Ha|right; reflexivity| |]; cbn [mp_en mp_we mp_addr mp_din].
      + intros k _. destruct (vi_rd i), (vi_wr i), (ar_in c (bram c k) (vi_addr i)); reflexivity.
      + intros k _ _. split; reflexivity.
    - cbn [av_step fst av_req av_addr av_in av_my av_m]. destruct (vi_rd i) eqn:Er; [|reflexivity]. split; [reflexivity|]. split; [reflexivity|]. split; [reflexivity|]. intros _.
      match goal with |- context [mems_step _ ?p] => set (port := p) end. pose proof (rd_step (av_m s) sm port (vi_addr i) (fun k => ar_in c (bram c k) (vi_addr i)) true Hr Ha eq_refl (or_intror eq_refl)) as Hx.
      assert (forall k, k < NB -> ar_in c (bram c k) (vi_addr i) = true -> mp_en (port k) = true /\ mp_addr (port k) = ar_idx c (bram c k) (vi_addr i)) as Hp.
      { intros k _ Hh. unfold port. cbn [mp_en mp_addr]. rewrite Hh. split; reflexivity. }
      specialize (Hx Hp). destruct (find (fun k => ar_in c (bram c k) (vi_addr i)) (brams c)) as [k|].
      + destruct Hx as [Hk [y [Em Ed]]]. rewrite Em, Ed. reflexivity.
      + rewrite Hx. exact I.
    - cbn [av_step fst av_wr av_in]. destruct (vi_wr i); [split; reflexivity|reflexivity].
  Qed.
  (** * IpifEndpoint *)
  Lemma ip_run is : forall s sm (wait : bool), rep (ip_m s) sm -> Forall (fun i => pi_addr i < 2 ^ e_aw c /\ din_ok c (pi_din i)) is -> ip_kept (trace (ip_step c) s is) ->
    (match ip_s s with IIdle => wait = false | _ => wait = true end) ->
    (match ip_s s, is with
     | IRData, i :: _ => pi_cs i = true /\ pi_rnw i = true /\ (reg_word c (pi_addr i) = false -> agrees (rd_mem sm (pi_addr i)) (match find (fun k => ar_in c (bram c k) (pi_addr i)) (brams c) with Some k => xdata c (m_dout (ip_m s) k) | None => repeat None (e_dw c) end))
     | IWAck, i :: _ => pi_cs i = true /\ pi_rnw i = false
     | _, _ => True
     end) -> ip_law c sm wait (trace (ip_step c) s is).
  Proof.
    induction is as [|i is IH]; intros s sm wait Hr HF Hk Hw Hs; [exact I|]. inversion_clear HF as [|? ? [Ha Hd] HF']. rewrite trace_cons in *. cbn [ip_law ip_kept fst snd] in *.
    destruct Hk as [Hk Hk'].
    assert (wait && negb (pi_rnw i) = match ip_s s with IWAck => true | _ => false end) as Ew.
    { destruct (ip_s s); rewrite Hw; [reflexivity| |]; destruct Hs as [_ Hs]; [rewrite Hs; reflexivity|destruct Hs as [Hs _]; rewrite Hs; reflexivity]. }
    split. { cbn [ip_step snd po_rdack]. destruct (ip_s s); rewrite Hw; [reflexivity| |]; destruct Hs as [_ Hs]; [rewrite Hs; reflexivity|destruct Hs as [Hs _]; rewrite Hs; reflexivity]. }
    split. { cbn [ip_step snd po_wrack]. symmetry. exact Ew. }
    split.
    { cbn [ip_step snd po_rdack po_d]. destruct (ip_s s); try discriminate. intros _. destruct Hs as [_ [_ Hs]]. unfold rd_value. rewrite (read_ok _ _ Hd).
      destruct (reg_word c (pi_addr i)); [reflexivity|apply Hs; reflexivity]. }
    split. { cbn [ip_step snd po_dout]. rewrite Ew. destruct (ip_s s); rewrite ?andb_false_r; try apply (fields_ok false). destruct Hs as [_ Hs]. rewrite Hs. apply (fields_ok true). }
    rewrite Ew. apply IH; [|exact HF'|exact Hk'| |].
    - cbn [ip_step fst ip_m]. apply rep_step with (h := fun k => ar_in c (bram c k) (pi_addr i)); [exact Hr|intros _; exact Ha|right; reflexivity| |]; cbn [mp_en mp_we mp_addr mp_din].
      + intros k _. destruct (ip_s s); destruct (pi_cs i), (ar_in c (bram c k) (pi_addr i)); try reflexivity. destruct Hs. discriminate.
      + intros k _ _. split; reflexivity.
    - cbn [ip_step fst ip_s]. change (in_my_range c) with (in_space c). destruct (ip_s s); rewrite Hw; cbn [negb andb]; [|reflexivity|reflexivity].
      destruct (pi_cs i), (in_space c (pi_addr i)), (pi_rnw i); reflexivity.
    - cbn [ip_step fst ip_s ip_m]. change (in_my_range c) with (in_space c). destruct (ip_s s) eqn:Es; [|exact I|exact I].
      destruct is as [|j is]; [destruct (if _ && pi_rnw i then _ else _); exact I|]. rewrite trace_cons in Hk. cbn [fst] in Hk.
      cbn [ip_step snd po_rdack po_wrack] in Hk. rewrite Es in Hk.
      destruct (pi_cs i) eqn:Ecs; [|exact I]. cbn [andb]. specialize (Hk eq_refl eq_refl). destruct Hk as [K1 [K2 [K3 K4]]].
      destruct (in_space c (pi_addr i)); [|exact I]. destruct (pi_rnw i); cbn [andb negb].
      + split; [exact K1|]. split; [exact K2|]. intros _. rewrite K3.
        match goal with |- context [mems_step _ ?p] => set (port := p) end. pose proof (rd_step (ip_m s) sm port (pi_addr i) (fun k => ar_in c (bram c k) (pi_addr i)) true Hr Ha eq_refl (or_intror eq_refl)) as Hx.
        assert (forall k, k < NB -> ar_in c (bram c k) (pi_addr i) = true -> mp_en (port k) = true /\ mp_addr (port k) = ar_idx c (bram c k) (pi_addr i)) as Hp.
        { intros k _ Hh. unfold port. cbn [mp_en mp_addr]. rewrite Hh. split; reflexivity. }
        specialize (Hx Hp). destruct (find (fun k => ar_in c (bram c k) (pi_addr i)) (brams c)) as [k|].
        * destruct Hx as [Hk2 [y [Em Ed]]]. rewrite Em, Ed. reflexivity.
        * rewrite Hx. exact I.
      + split; [exact K1|exact K2].
  Qed.
End Core.
