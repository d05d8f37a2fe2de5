From Verif Require Import Base BaseFacts StreamSpec StreamFacts BcdModel BcdSpec BcdProofs SfModel SfSpec.

(** * frames *)
Lemma frames_snoc {A} ws : forall cur (d : A) l,
  frames cur (ws ++ [(d, l)]) = frames cur ws ++ (if l then [rest cur ws ++ [d]] else []).
Proof.
  induction ws as [|[x k] ws IH]; intros cur d l; cbn [app frames rest].
  - destruct l; reflexivity.
  - destruct k; [cbn [app]; f_equal|]; apply IH.
Qed.
Lemma rest_snoc {A} ws : forall cur (d : A) l,
  rest cur (ws ++ [(d, l)]) = if l then [] else rest cur ws ++ [d].
Proof.
  induction ws as [|[x k] ws IH]; intros cur d l; cbn [app rest]; [reflexivity|].
  destruct k; apply IH.
Qed.

(** * string_rom *)
Lemma length_rom_fits items i : i < length (rom items) -> wrap (idx_w items) i = i.
Proof. intros H. unfold wrap, idx_w. apply Nat.mod_small. pose proof (log2ceil_ge (length (rom items))). lia. Qed.

Lemma strs_app a b : strs (a ++ b) = strs a ++ strs b.
Proof. unfold strs. apply flat_map_app. Qed.

Lemma rom_str items m b c : nth_error items m = Some (SStr b) -> c < length b ->
  rom_at items (str_off items m + c) = nth_error b c.
Proof.
  intros Hm Hc. destruct (nth_error_split _ _ Hm) as (l1 & l2 & -> & <-).
  assert (E : rom (l1 ++ SStr b :: l2) = strs l1 ++ b ++ (strs l2 ++ tables (l1 ++ SStr b :: l2) [TX; Tb; Td; To; Tx])).
  { unfold rom. rewrite strs_app. change (strs (SStr b :: l2)) with (b ++ strs l2). rewrite <- !app_assoc. reflexivity. }
  assert (Eo : str_off (l1 ++ SStr b :: l2) (length l1) = length (strs l1)).
  { unfold str_off. rewrite firstn_app, firstn_all, Nat.sub_diag. cbn [firstn]. rewrite app_nil_r. reflexivity. }
  unfold rom_at. rewrite Eo, length_rom_fits, E by (rewrite E, !app_length; lia).
  rewrite nth_error_app2 by lia. replace (length (strs l1) + c - length (strs l1)) with c by lia.
  apply nth_error_app1. exact Hc.
Qed.

Lemma tables_app items a b : tables items (a ++ b) = tables items a ++ tables items b.
Proof. unfold tables. apply flat_map_app. Qed.

Lemma rom_tbl items t g : uses items t = true -> g < length (tbl_chars t) ->
  rom_at items (tbl_off items t + g) = nth_error (tbl_chars t) g.
Proof.
  intros Hu Hg.
  assert (exists r, rom items = strs items ++ tables items (before t) ++ tbl_chars t ++ r) as (r & E).
  { unfold rom. destruct t; cbn [before].
    - exists (tables items [Tb; Td; To; Tx]). change [TX; Tb; Td; To; Tx] with ([TX] ++ [Tb; Td; To; Tx]). rewrite tables_app.
      unfold tables at 1. cbn [flat_map]. rewrite Hu. rewrite app_nil_r. reflexivity.
    - exists (tables items [Td; To; Tx]). change [TX; Tb; Td; To; Tx] with ([TX] ++ [Tb] ++ [Td; To; Tx]). rewrite !tables_app.
      unfold tables at 2. cbn [flat_map]. rewrite Hu. rewrite app_nil_r. reflexivity.
    - exists (tables items [To; Tx]). change [TX; Tb; Td; To; Tx] with ([TX; Tb] ++ [Td] ++ [To; Tx]). rewrite !tables_app.
      unfold tables at 2. cbn [flat_map]. rewrite Hu. rewrite app_nil_r. reflexivity.
    - exists (tables items [Tx]). change [TX; Tb; Td; To; Tx] with ([TX; Tb; Td] ++ [To] ++ [Tx]). rewrite !tables_app.
      unfold tables at 2. cbn [flat_map]. rewrite Hu. rewrite app_nil_r. reflexivity.
    - exists []. change [TX; Tb; Td; To; Tx] with ([TX; Tb; Td; To] ++ [Tx]). rewrite !tables_app.
      unfold tables at 2. cbn [flat_map]. rewrite Hu. rewrite !app_nil_r. reflexivity. }
  unfold rom_at, tbl_off. rewrite length_rom_fits, E by (rewrite E, !app_length; lia).
  rewrite nth_error_app2 by lia. rewrite nth_error_app2 by lia. rewrite nth_error_app1 by lia. f_equal. lia.
Qed.

Lemma uses_in items m t f d : nth_error items m = Some (SNum t f d) -> uses items t = true.
Proof.
  intros H. apply existsb_exists. exists (SNum t f d). split; [exact (nth_error_In _ _ H)|]. destruct t; reflexivity.
Qed.

(** * digits *)
Lemma digit_slice bits w v k : (v < 2 ^ N.of_nat w)%N -> 1 <= bits ->
  (if k * bits <? w then N.to_nat (N.shiftr (v mod 2 ^ N.of_nat (Nat.min ((k + 1) * bits) w)) (N.of_nat (k * bits))) else 0)
  = N.to_nat ((v / (2 ^ N.of_nat bits) ^ N.of_nat k) mod 2 ^ N.of_nat bits)%N.
Proof.
  intros Hv Hb. rewrite <- N.pow_mul_r. replace (N.of_nat bits * N.of_nat k)%N with (N.of_nat (k * bits)) by lia.
  destruct (k * bits <? w) eqn:E.
  - f_equal. rewrite <- N.shiftr_div_pow2. apply N.bits_inj. intro n.
    rewrite N.shiftr_spec by lia.
    destruct (N.lt_ge_cases n (N.of_nat bits)) as [Hn|Hn].
    + rewrite N.mod_pow2_bits_low with (n := N.of_nat bits) by exact Hn. rewrite N.shiftr_spec by lia.
      destruct (N.lt_ge_cases (n + N.of_nat (k * bits)) (N.of_nat (Nat.min ((k + 1) * bits) w))) as [H|H].
      * apply N.mod_pow2_bits_low. exact H.
      * rewrite N.mod_pow2_bits_high by exact H. symmetry. destruct (N.eq_dec v 0) as [->|Hz]; [apply N.bits_0|].
        apply N.bits_above_log2. apply N.log2_lt_pow2; [lia|]. eapply N.lt_le_trans; [exact Hv|]. apply N.pow_le_mono_r; lia.
    + rewrite (N.mod_pow2_bits_high _ (N.of_nat bits)) by exact Hn. apply N.mod_pow2_bits_high. lia.
  - rewrite N.div_small; [rewrite N.mod_0_l by (apply N.pow_nonzero; lia); reflexivity|].
    eapply N.lt_le_trans; [exact Hv|]. apply N.pow_le_mono_r; lia.
Qed.

Lemma num_text_length base a n v : length (num_text base a n v) = n.
Proof. unfold num_text. rewrite map_length, seq_length. reflexivity. Qed.
Lemma num_text_nth base a n v c : c < n ->
  nth_error (num_text base a n v) c = Some (digit_char a (N.to_nat ((v / base ^ N.of_nat (n - 1 - c)) mod base))).
Proof.
  intros H. unfold num_text. rewrite nth_error_map. rewrite (nth_error_nth' (seq 0 n) 0) by (rewrite seq_length; exact H).
  rewrite seq_nth by exact H. reflexivity.
Qed.

Definition base_of (t : sf_tbl) : N := match t with TX | Tx => 16 | Tb => 2 | Td => 10 | To => 8 end.
Definition alpha_of (t : sf_tbl) : nat := match t with TX => 65 | Tx => 97 | _ => 0 end.
Lemma item_text_num num str t f d : item_text num str (SNum t f d) = num_text (base_of t) (alpha_of t) d (num f).
Proof. destruct t; reflexivity. Qed.

Lemma tbl_digit t g : g < N.to_nat (base_of t) -> nth_error (tbl_chars t) g = Some (digit_char (alpha_of t) g) /\ g < length (tbl_chars t).
Proof.
  intros H. destruct t; cbn [base_of] in H; unfold tbl_chars, codes; cbn [alpha_of].
  1, 5: change (N.to_nat 16) with 16 in H; do 16 (destruct g as [|g]; [split; [reflexivity|cbn; lia]|]); lia.
  - change (N.to_nat 2) with 2 in H. do 2 (destruct g as [|g]; [split; [reflexivity|cbn; lia]|]). lia.
  - change (N.to_nat 10) with 10 in H. do 10 (destruct g as [|g]; [split; [reflexivity|cbn; lia]|]). lia.
  - change (N.to_nat 8) with 8 in H. do 8 (destruct g as [|g]; [split; [reflexivity|cbn; lia]|]). lia.
Qed.

  Lemma in_once_list items f : NoDup (in_fields items) -> forall j j', nth_error items j = Some (SIn f) -> nth_error items j' = Some (SIn f) -> j = j'.
  Proof.
    unfold in_fields. induction items as [|it l IH]; intros H j j' H1 H2; [destruct j; discriminate|].
    cbn [flat_map] in H.
    assert (Hin : forall k g, nth_error l k = Some (SIn g) -> In g (flat_map (fun it => match it with SIn f => [f] | _ => [] end) l)).
    { intros k g Hk. apply in_flat_map. exists (SIn g). split; [exact (nth_error_In _ _ Hk)|left; reflexivity]. }
    assert (H' : NoDup (flat_map (fun it => match it with SIn f => [f] | _ => [] end) l)).
    { destruct it; cbn [app] in H; [exact H|exact H|]. apply NoDup_cons_iff in H. apply H. }
    destruct j as [|j], j' as [|j']; cbn [nth_error] in *; [reflexivity| | |f_equal; apply IH; assumption].
    - injection H1 as ->. cbn [app] in H. apply NoDup_cons_iff in H. exfalso. apply H. exact (Hin _ _ H2).
    - injection H2 as ->. cbn [app] in H. apply NoDup_cons_iff in H. exfalso. apply H. exact (Hin _ _ H1).
  Qed.

Section P.
  Variables (items : list sf_item) (fw : nat -> nat) (W D : nat) (num : nat -> N).
  Hypothesis HE : sf_elaborates items fw W.
  Hypothesis HW : 1 <= W.
  Hypothesis HD : (2 ^ N.of_nat W <= 10 ^ N.of_nat D)%N.
  Hypothesis Hnum : forall f, (num f < 2 ^ N.of_nat (fw f))%N.
  Notation step := (sf_step items fw W).

  Definition T (str : nat -> list nat) it := item_text num str it.
  Definition notin (it : sf_item) : Prop := match it with SIn _ => False | _ => True end.

  Lemma elab m it : nth_error items m = Some it -> item_elaborates items fw W it.
  Proof. intros H. destruct HE as (_ & H1 & _). exact (proj1 (Forall_forall _ _) H1 it (nth_error_In _ _ H)). Qed.

  (** bin_to_bcd in the item [it] with char_i = [c] *)
  Definition bcd_ok (it : sf_item) (c : nat) (b : b2b) : Prop :=
    exists p, b2b_inv W D b p /\
    match it with
    | SNum Td f d => (forall x, p = Some x -> x = num f) /\ (0 < c -> b_st b = BFin)
    | _ => p = None
    end.

  Definition Inv (s : sf_st) (ow : list (option nat * bool)) (iw : nat -> list (nat * bool)) : Prop :=
    let fs f := frames [] (iw f) in
    let n := length (frames [] ow) in
    (forall k, k < n -> nth_error (frames [] ow) k = Some (map Some (text num (fun f => nth k (fs f) []) items))) /\
    exists it part, nth_error items (sf_main s) = Some it /\
      rest [] ow = map Some (text num (fun f => nth n (fs f) []) (firstn (sf_main s) items) ++ part) /\
      match it with
      | SIn f => part = rest [] (iw f)
      | _ => sf_char s < length (item_text num (fun _ => []) it) /\ part = firstn (sf_char s) (item_text num (fun _ => []) it)
      end /\
      (forall j f, nth_error items j = Some (SIn f) ->
        length (fs f) = (if j <? sf_main s then n + 1 else n) /\ (j <> sf_main s -> rest [] (iw f) = [])) /\
      bcd_ok it (sf_char s) (sf_bcd s).

  (** the character offered in item [it] *)
  Lemma offered s i it : (forall f, si_num i f = num f) -> nth_error items (sf_main s) = Some it -> notin it ->
    sf_char s < length (item_text num (fun _ => []) it) -> bcd_ok it (sf_char s) (sf_bcd s) ->
    forall v l d, sf_group items fw s i = (v, l, d) -> v = true ->
    d = nth_error (item_text num (fun _ => []) it) (sf_char s) /\ (l = true <-> S (sf_char s) = length (item_text num (fun _ => []) it)).
  Proof.
    intros Hi Hm Hn Hc Hb v l d Hg Hv. unfold sf_group in Hg. rewrite Hm in Hg. pose proof (elab _ _ Hm) as He.
    destruct it as [b|t f dg|f]; [| |contradiction].
    - injection Hg as <- <- <-. cbn [item_text] in *. split; [exact (rom_str _ _ _ _ Hm Hc)|]. cbn [item_elaborates] in He. lia.
    - rewrite item_text_num in *. rewrite num_text_length in *. cbn [item_elaborates] in He.
      rewrite num_text_nth by exact Hc. injection Hg as <- <- <-. split; [|lia].
      assert (G : forall g, g < N.to_nat (base_of t) -> rom_at items (tbl_off items t + g) = Some (digit_char (alpha_of t) g)).
      { intros g Hg. destruct (tbl_digit t g Hg) as [E1 E2]. rewrite (rom_tbl items t g (uses_in _ _ _ _ _ Hm) E2). exact E1. }
      assert (Hmod : forall x, N.to_nat (x mod base_of t)%N < N.to_nat (base_of t)).
      { intros x. pose proof (N.mod_lt x (base_of t) ltac:(destruct t; discriminate)). lia. }
      destruct (tbl_eqb t Td) eqn:Et.
      + assert (t = Td) by (destruct t; try discriminate; reflexivity). subst t. destruct Hb as (p & HI & Hx & _).
        unfold b_vld in Hv. destruct HI as [Hl HI]. destruct (b_st (sf_bcd s)); try discriminate.
        destruct p as [x|]; [|contradiction]. pose proof (conv_fin W D x (sf_bcd s) HI) as [Hl' Hd].
        specialize (Hx x eq_refl). subst x.
        unfold dec_digit. rewrite (proj2 (Nat.ltb_lt _ _) Hc). replace (dg - sf_char s - 1) with (dg - 1 - sf_char s) by lia.
        assert (En : nth (dg - 1 - sf_char s) (b_bcd (sf_bcd s)) 0%N = ((num f / 10 ^ N.of_nat (dg - 1 - sf_char s)) mod 10)%N).
        { destruct (Nat.lt_ge_cases (dg - 1 - sf_char s) D) as [H|H]; [exact (Hd _ H)|].
          rewrite nth_overflow by lia. rewrite N.div_small; [reflexivity|].
          destruct HI as (_ & Hlt & _). eapply N.lt_le_trans; [exact Hlt|]. eapply N.le_trans; [exact HD|]. apply N.pow_le_mono_r; lia. }
        rewrite En. apply G. apply Hmod.
      + unfold num_digit. rewrite (proj2 (Nat.ltb_lt _ _) Hc). replace (dg - sf_char s - 1) with (dg - 1 - sf_char s) by lia.
        rewrite Hi. rewrite digit_slice; [|apply Hnum|destruct t; cbn; lia].
        assert (Eb : (2 ^ N.of_nat (tbl_bits t))%N = base_of t) by (destruct t; try reflexivity; discriminate).
        rewrite Eb. apply G. apply Hmod.
  Qed.

  Lemma char_small it m : nth_error items m = Some it -> notin it -> length (item_text num (fun _ => []) it) <= 2 ^ char_w items.
  Proof.
    intros Hm Hn. pose proof (elab _ _ Hm) as He. destruct it as [b|t f d|f]; [| |contradiction]; cbn [item_elaborates] in He.
    - cbn [item_text]. lia.
    - rewrite item_text_num, num_text_length. lia.
  Qed.
  Lemma text_pos it m : nth_error items m = Some it -> notin it -> 0 < length (item_text num (fun _ => []) it).
  Proof.
    intros Hm Hn. pose proof (elab _ _ Hm) as He. destruct it as [b|t f d|f]; [| |contradiction]; cbn [item_elaborates] in He.
    - cbn [item_text]. lia.
    - rewrite item_text_num, num_text_length. lia.
  Qed.
  Lemma notin_text it str : notin it -> item_text num str it = item_text num (fun _ => []) it.
  Proof. destruct it as [b|t f d|f]; [reflexivity|destruct t; reflexivity|contradiction]. Qed.

  Lemma in_once j j' f : nth_error items j = Some (SIn f) -> nth_error items j' = Some (SIn f) -> j = j'.
  Proof. apply in_once_list. apply HE. Qed.

  (** the text of items which do not depend on what differs *)
  Lemma text_ext str str' l : (forall f, In (SIn f) l -> str f = str' f) -> text num str l = text num str' l.
  Proof.
    intros H. unfold text. induction l as [|it l IH]; [reflexivity|]. cbn [flat_map]. f_equal.
    - destruct it as [b|t f d|f]; [reflexivity|destruct t; reflexivity|]. apply H. left. reflexivity.
    - apply IH. intros f Hf. apply H. right. exact Hf.
  Qed.
  Lemma text_snoc str l it : text num str (l ++ [it]) = text num str l ++ item_text num str it.
  Proof. unfold text. rewrite flat_map_app. cbn [flat_map]. rewrite app_nil_r. reflexivity. Qed.

  Lemma firstn_S_nth {A} (l : list A) : forall m x, nth_error l m = Some x -> firstn (S m) l = firstn m l ++ [x].
  Proof. induction l as [|a l IH]; intros [|m] x H; try discriminate; cbn [nth_error] in H; [injection H as ->; reflexivity|]. cbn [app firstn]. f_equal. exact (IH _ _ H). Qed.
  Lemma firstn_in {A} (l : list A) m x : In x (firstn m l) -> exists j, j < m /\ nth_error l j = Some x.
  Proof.
    intros H. apply In_nth_error in H. destruct H as [j Hj]. exists j.
    assert (Hlt : j < length (firstn m l)) by (apply nth_error_Some; congruence). rewrite firstn_length in Hlt.
    split; [lia|]. rewrite <- Hj. symmetry. revert m Hj Hlt. revert j. induction l as [|a l IH]; intros [|j] [|m] Hj Hlt; try reflexivity; cbn [firstn length] in *; try lia.
    cbn [nth_error] in *. apply IH; [exact Hj|lia].
  Qed.

  (** bin_to_bcd while char_i and main_st are kept *)
  Lemma bcd_wait s i it : (forall f, si_num i f = num f) -> nth_error items (sf_main s) = Some it -> bcd_ok it (sf_char s) (sf_bcd s) ->
    (forall f d, it = SNum Td f d -> b_st (sf_bcd s) = BFin -> si_ready i = true -> sf_char s <> d - 1) ->
    forall c', (forall f d, it = SNum Td f d -> 0 < c' -> b_st (sf_bcd s) = BFin) ->
    bcd_ok it c' (fst (b2b_step W (sf_bcd s) (sf_bcd_in items s i))).
  Proof.
    intros Hi Hm (p & HI & Hp) Hn c' Hc'. unfold sf_bcd_in. rewrite Hm.
    set (bi := match it with SNum Td f d => mk_bi (sf_char s =? 0) (si_num i f) (si_ready i && (sf_char s =? d - 1)) | _ => mk_bi false 0%N false end).
    assert (Hbi : bi_vld bi = true -> (bi_data bi < 2 ^ N.of_nat W)%N).
    { unfold bi. destruct it as [b|t f d|f]; try discriminate. destruct t; try discriminate. cbn [bi_data]. intros _. rewrite Hi.
      pose proof (elab _ _ Hm) as He. cbn [item_elaborates] in He. eapply N.lt_le_trans; [apply Hnum|]. apply N.pow_le_mono_r; [lia|].
      assert (fw f <= W) by (apply He; reflexivity). lia. }
    pose proof (b2b_inv_step W D HW HD (sf_bcd s) p bi HI Hbi) as HS.
    exists (b2b_pend p bi (snd (b2b_step W (sf_bcd s) bi))). split.
    - exact HS.
    - unfold b2b_pend, b2b_step. cbn [snd bo_rd bo_vld].
      destruct it as [b|t f d|f]; cbn in bi; unfold bi; cbn [bi_vld bi_rd andb]; [exact Hp| |exact Hp].
      destruct t; cbn [bi_vld bi_rd andb]; try exact Hp. destruct Hp as [Hp1 Hp2]. split.
      + intros x Hx. cbn [bi_data] in Hx. rewrite Hi in Hx. destruct (b_st (sf_bcd s)); destruct (sf_char s =? 0); cbn [andb] in Hx; rewrite ?andb_false_r in Hx;
        try (injection Hx as <-; reflexivity); try (exact (Hp1 x Hx)); destruct (si_ready i && (sf_char s =? d - 1)); cbn [andb] in Hx; try discriminate; exact (Hp1 x Hx).
      + intros Hpos. specialize (Hc' f d eq_refl Hpos). cbn [fst b_st]. rewrite Hc'. cbn [bi_rd].
        destruct (si_ready i && (sf_char s =? d - 1)) eqn:E; [|reflexivity]. exfalso. apply andb_prop in E. destruct E as [E1 E2].
        apply (Hn f d eq_refl Hc' E1). lia.
  Qed.

  (** bin_to_bcd is idle after the last character of its item *)
  Lemma bcd_done s i it it' : (forall f, si_num i f = num f) -> nth_error items (sf_main s) = Some it -> bcd_ok it (sf_char s) (sf_bcd s) ->
    si_ready i = true -> (forall f d, it = SNum Td f d -> b_st (sf_bcd s) = BFin /\ sf_char s = d - 1) ->
    bcd_ok it' 0 (fst (b2b_step W (sf_bcd s) (sf_bcd_in items s i))).
  Proof.
    intros Hi Hm (p & HI & Hp) Hr Hn. unfold sf_bcd_in. rewrite Hm.
    assert (HN : b2b_inv W D (fst (b2b_step W (sf_bcd s) (match it with SNum Td f d => mk_bi (sf_char s =? 0) (si_num i f) (si_ready i && (sf_char s =? d - 1)) | _ => mk_bi false 0%N false end))) None).
    { assert (HZ : forall bi, bi_vld bi = false -> p = None -> b2b_inv W D (fst (b2b_step W (sf_bcd s) bi)) None).
      { intros bi Hv ->. pose proof (b2b_inv_step W D HW HD (sf_bcd s) None bi HI ltac:(congruence)) as HS. unfold b2b_pend in HS. rewrite Hv in HS. cbn [andb] in HS.
        destruct (bi_rd bi && _) in HS; exact HS. }
      destruct it as [b|t f d|f]; [apply HZ; [reflexivity|exact Hp]| |apply HZ; [reflexivity|exact Hp]].
      destruct t; try (apply HZ; [reflexivity|exact Hp]).
      destruct (Hn f d eq_refl) as [Hf Hc]. unfold b2b_step. rewrite Hf. cbn [fst bi_rd]. rewrite Hr, Hc, Nat.eqb_refl. cbn [andb].
      destruct HI as [Hl _]. split; [exact Hl|]. cbn [b_st]. right. exact I. }
    exists None. split; [exact HN|]. destruct it' as [b|t f d|f]; try reflexivity. destruct t; try reflexivity. split; [discriminate|lia].
  Qed.

  Definition iw_add (i : sf_in) (o : sf_out) (iw : nat -> list (nat * bool)) : nat -> list (nat * bool) :=
    fun f => iw f ++ (if si_valid i f && so_ready o f then [(si_data i f, si_last i f)] else []).
  Definition ow_add (i : sf_in) (o : sf_out) (ow : list (option nat * bool)) : list (option nat * bool) :=
    ow ++ (if so_valid o && si_ready i then [(so_data o, so_last o)] else []).

  Lemma Inv_step s ow iw i : (forall f, si_num i f = num f) -> Inv s ow iw ->
    Inv (sf_next items fw W s i) (ow_add i (sf_o items fw s i) ow) (iw_add i (sf_o items fw s i) iw).
  Proof.
    intros Hi (HA & it & part & Hm & HB & HP & HC & HQ).
    unfold sf_next, sf_o. destruct (sf_group items fw s i) as [[v l] d] eqn:Eg.
    set (o := mk_sfo _ _ _ _). set (s' := mk_sfs _ _ _).
    assert (Hmlt : sf_main s < length items) by (apply nth_error_Some; congruence).
    assert (Hv0 : forall f, it = SIn f -> v = si_valid i f /\ l = si_last i f /\ d = Some (si_data i f)).
    { intros f ->. unfold sf_group in Eg. rewrite Hm in Eg. injection Eg as <- <- <-. auto. }
    assert (Hvd : forall f dg, it = SNum Td f dg -> v = b_vld (sf_bcd s) /\ l = (sf_char s =? dg - 1)).
    { intros f dg ->. unfold sf_group in Eg. rewrite Hm in Eg. injection Eg as <- <- <-. auto. }
    destruct (si_ready i && v) eqn:Et.
    2:{ (* nothing is transferred *)
      assert (Eo : ow_add i o ow = ow).
      { unfold ow_add, o. cbn [so_valid]. rewrite (andb_comm v), Et. apply app_nil_r. }
      assert (Ei : forall f, iw_add i o iw f = iw f).
      { intros f. unfold iw_add, o. cbn [so_ready]. rewrite Hm. destruct it as [b|t g dg|g]; rewrite ?andb_false_r; try apply app_nil_r.
        destruct (f =? g) eqn:E; [|rewrite !andb_false_r; apply app_nil_r]. apply Nat.eqb_eq in E. subst f.
        destruct (Hv0 g eq_refl) as (-> & _). rewrite andb_true_r, (andb_comm (si_valid i g)), Et. apply app_nil_r. }
      rewrite Eo. unfold Inv. assert (Es : sf_main s' = sf_main s /\ sf_char s' = sf_char s) by (unfold s'; cbn [sf_main sf_char andb]; auto).
      destruct Es as [-> ->]. split; [|exists it, part; split; [exact Hm|split; [|split; [|split]]]].
      - intros k Hk. rewrite (HA k Hk). f_equal. f_equal. apply text_ext. intros f _. rewrite Ei. reflexivity.
      - rewrite HB. f_equal. f_equal. apply text_ext. intros f _. rewrite Ei. reflexivity.
      - destruct it; try exact HP. rewrite Ei. exact HP.
      - intros j f Hj. rewrite Ei. exact (HC j f Hj).
      - unfold s'. cbn [sf_bcd]. apply (bcd_wait s i it Hi Hm HQ).
        + intros f dg -> Hfin Hr. destruct (Hvd f dg eq_refl) as [Ev _]. unfold b_vld in Ev. rewrite Hfin in Ev. rewrite Hr, Ev in Et. discriminate.
        + intros f dg -> Hpos. destruct HQ as (p & _ & _ & H). exact (H Hpos). }
    (* a word is transferred *)
    apply andb_prop in Et. destruct Et as [Er Ev]. subst v. cbn [andb] in s'.
    assert (exists x, d = Some x) as [x Ed].
    { destruct it as [b|t g dg|g]; [| |exists (si_data i g); apply (Hv0 g eq_refl)].
      all: destruct (offered s i _ Hi Hm I (proj1 HP) HQ _ _ _ Eg eq_refl) as [E _]; rewrite E; destruct HP as [HP _].
      all: match goal with |- exists x, ?e = Some x => destruct e eqn:E'; [eauto|apply nth_error_None in E'; lia] end. }
    subst d.
    assert (Eo : ow_add i o ow = ow ++ [(Some x, l && (sf_main s =? length items - 1))]).
    { unfold ow_add, o. cbn [so_valid so_data so_last]. rewrite Er. reflexivity. }
    assert (Ei : forall f, iw_add i o iw f = iw f ++ (match it with SIn g => if f =? g then [(x, l)] else [] | _ => [] end)).
    { intros f. unfold iw_add, o. cbn [so_ready]. rewrite Hm, Er. cbn [andb]. destruct it as [b|t g dg|g]; rewrite ?andb_false_r; try reflexivity.
      destruct (f =? g) eqn:E; [|rewrite andb_false_r; reflexivity]. apply Nat.eqb_eq in E. subst f.
      destruct (Hv0 g eq_refl) as (H1 & H2 & H3). rewrite <- H1, <- H2. injection H3 as <-. reflexivity. }
    rewrite Eo. set (iw' := iw_add i o iw) in *. clearbody iw'. clear Eo.
    set (n := length (frames [] ow)) in *.
    (* frames of the streams *)
    assert (Ef : forall f, frames [] (iw' f) = frames [] (iw f) ++ (match it with SIn g => if (f =? g) && l then [rest [] (iw f) ++ [x]] else [] | _ => [] end)).
    { intros f. rewrite Ei. destruct it as [b|t g dg|g]; try (rewrite !app_nil_r; reflexivity). destruct (f =? g); [|rewrite !app_nil_r; reflexivity].
      cbn [andb]. apply frames_snoc. }
    assert (Er' : forall f, rest [] (iw' f) = match it with SIn g => if f =? g then if l then [] else rest [] (iw f) ++ [x] else rest [] (iw f) | _ => rest [] (iw f) end).
    { intros f. rewrite Ei. destruct it as [b|t g dg|g]; try (rewrite app_nil_r; reflexivity). destruct (f =? g); [|rewrite app_nil_r; reflexivity].
      apply rest_snoc. }
    (* texts of finished items *)
    assert (Ek : forall k its, (forall f, In (SIn f) its -> k < length (frames [] (iw f))) ->
      text num (fun f => nth k (frames [] (iw' f)) []) its = text num (fun f => nth k (frames [] (iw f)) []) its).
    { intros k its H. apply text_ext. intros f Hf. rewrite Ef. apply app_nth1. exact (H f Hf). }
    assert (Hlast : forall f, In (SIn f) (firstn (sf_main s) items) -> n < length (frames [] (iw f))).
    { intros f Hf. apply firstn_in in Hf. destruct Hf as (j & Hj & Ej). destruct (HC j f Ej) as [E _]. rewrite E.
      rewrite (proj2 (Nat.ltb_lt _ _) Hj). lia. }
    assert (Hall : forall k f, k < n -> In (SIn f) items -> k < length (frames [] (iw f))).
    { intros k f Hk Hf. apply In_nth_error in Hf. destruct Hf as [j Ej]. destruct (HC j f Ej) as [E _]. rewrite E. destruct (j <? sf_main s); lia. }
    assert (HA' : forall k, k < n -> nth_error (frames [] ow) k = Some (map Some (text num (fun f => nth k (frames [] (iw' f)) []) items))).
    { intros k Hk. rewrite (HA k Hk), Ek; [reflexivity|]. intros f Hf. exact (Hall k f Hk Hf). }
    (* part of the item *)
    assert (Hpart : if l then part ++ [x] = item_text num (fun f => nth n (frames [] (iw' f)) []) it
                    else match it with SIn f => part ++ [x] = rest [] (iw' f)
                         | _ => sf_char s + 1 < length (item_text num (fun _ => []) it) /\ part ++ [x] = firstn (sf_char s + 1) (item_text num (fun _ => []) it) end).
    { assert (HX : notin it -> part ++ [x] = firstn (sf_char s + 1) (item_text num (fun _ => []) it) /\ (l = true <-> S (sf_char s) = length (item_text num (fun _ => []) it)) /\ sf_char s < length (item_text num (fun _ => []) it)).
      { intros Hni. assert (HP' : sf_char s < length (item_text num (fun _ => []) it) /\ part = firstn (sf_char s) (item_text num (fun _ => []) it)) by (destruct it; [exact HP|exact HP|contradiction]).
        destruct HP' as [Hc ->]. destruct (offered s i it Hi Hm Hni Hc HQ _ _ _ Eg eq_refl) as [E1 E2]. split; [|split; [exact E2|exact Hc]].
        rewrite Nat.add_1_r. symmetry. apply firstn_S_nth. symmetry. exact E1. }
      destruct l.
      - destruct it as [b|t g dg|g].
        1, 2: destruct (HX I) as (E1 & E2 & _); rewrite E1, (notin_text _ (fun f => nth n (frames [] (iw' f)) [])) by exact I; rewrite firstn_all2; [reflexivity|]; pose proof (proj1 E2 eq_refl); lia.
        cbn [item_text]. destruct (HC _ _ Hm) as [E _]. rewrite Nat.ltb_irrefl in E. rewrite Ef, Nat.eqb_refl. cbn [andb].
        rewrite <- E, app_nth2, Nat.sub_diag by lia. cbn [nth]. rewrite HP. reflexivity.
      - destruct it as [b|t g dg|g].
        1, 2: destruct (HX I) as (E1 & E2 & E3); split; [|exact E1];
          match type of E2 with _ <-> S ?c = ?n => destruct (Nat.eq_dec (S c) n) as [H|H]; [pose proof (proj2 E2 H); discriminate|lia] end.
        rewrite Er', Nat.eqb_refl, HP. reflexivity. }
    destruct l; cbn [andb] in *.
    - (* end of an item *)
      destruct (sf_main s =? length items - 1) eqn:Elast.
      + (* end of the text *)
        apply Nat.eqb_eq in Elast. unfold Inv. rewrite frames_snoc, rest_snoc, app_length. fold n. cbn [length].
        assert (Hfull : rest [] ow ++ [Some x] = map Some (text num (fun f => nth n (frames [] (iw' f)) []) items)).
        { rewrite HB. change [Some x] with (map Some [x]). rewrite <- map_app. f_equal. rewrite <- app_assoc, Hpart.
          rewrite <- Ek by exact Hlast. rewrite <- text_snoc, <- (firstn_S_nth _ _ _ Hm). f_equal. apply firstn_all2. lia. }
        split.
        * intros k Hk. destruct (Nat.lt_ge_cases k n) as [H|H].
          -- rewrite nth_error_app1 by exact H. exact (HA' k H).
          -- replace k with n by lia. rewrite nth_error_app2 by reflexivity. unfold n at 1. rewrite Nat.sub_diag. cbn [nth_error]. rewrite Hfull. reflexivity.
        * destruct (nth_error items 0) as [it0|] eqn:E0; [|apply nth_error_None in E0; lia].
          exists it0, []. unfold s'. cbn [sf_main sf_char sf_bcd]. split; [exact E0|]. split; [reflexivity|].
          assert (HC' : forall j f, nth_error items j = Some (SIn f) -> length (frames [] (iw' f)) = n + 1 /\ rest [] (iw' f) = []).
          { intros j f Hj. assert (j < length items) by (apply nth_error_Some; congruence). destruct (HC j f Hj) as [E1 E2].
            rewrite Ef, Er', app_length, E1. destruct (Nat.eq_dec j (sf_main s)) as [->|Hne].
            - rewrite Hm in Hj. injection Hj as ->. rewrite Nat.eqb_refl, Nat.ltb_irrefl. cbn [andb length]. split; [lia|reflexivity].
            - rewrite (proj2 (Nat.ltb_lt _ _)) by lia. rewrite (E2 Hne). destruct it as [b|t g dg|g]; try (split; [cbn; lia|reflexivity]).
              destruct (Nat.eqb_spec f g) as [->|Hfg]; [exfalso; apply Hne; exact (in_once _ _ _ Hj Hm)|]. split; [cbn; lia|reflexivity]. }
          split; [|split].
          -- destruct it0 as [b|t g dg|g].
             1, 2: split; [exact (text_pos _ _ E0 I)|reflexivity].
             symmetry. exact (proj2 (HC' _ _ E0)).
          -- intros j f Hj. destruct (HC' j f Hj) as [E1 E2]. split; [exact E1|]. intros _. exact E2.
          -- apply (bcd_done s i it it0 Hi Hm HQ Er). intros f dg ->. destruct (Hvd f dg eq_refl) as [H1 H2]. unfold b_vld in H1.
             split; [destruct (b_st (sf_bcd s)); congruence|]. symmetry in H2. apply Nat.eqb_eq in H2. exact H2.
      + (* the next item *)
        apply Nat.eqb_neq in Elast. unfold Inv. rewrite frames_snoc, rest_snoc, app_nil_r. fold n. split; [exact HA'|].
        destruct (nth_error items (sf_main s + 1)) as [it1|] eqn:E1; [|apply nth_error_None in E1; lia].
        exists it1, []. unfold s'. cbn [sf_main sf_char sf_bcd]. split; [exact E1|]. split; [|split; [|split]].
        * rewrite HB. change [Some x] with (map Some [x]). rewrite <- map_app. f_equal. rewrite <- app_assoc, Hpart.
          rewrite <- Ek by exact Hlast. rewrite <- text_snoc, <- (firstn_S_nth _ _ _ Hm), Nat.add_1_r, app_nil_r. reflexivity.
        * destruct it1 as [b|t g dg|g].
          1, 2: split; [exact (text_pos _ _ E1 I)|reflexivity].
          rewrite Er'. destruct (HC _ _ E1) as [_ E2]. rewrite (E2 ltac:(lia)).
          destruct it as [b|t g' dg|g']; try reflexivity. destruct (Nat.eqb_spec g g') as [->|Hfg]; reflexivity.
        * intros j f Hj. destruct (HC j f Hj) as [E2 E3]. rewrite Ef, Er', app_length, E2. destruct (Nat.eq_dec j (sf_main s)) as [->|Hne].
          -- rewrite Hm in Hj. injection Hj as ->. rewrite Nat.eqb_refl, Nat.ltb_irrefl. rewrite (proj2 (Nat.ltb_lt (sf_main s) (sf_main s + 1))) by lia. cbn [andb length]. split; [lia|reflexivity].
          -- rewrite (E3 Hne). assert ((j <? sf_main s + 1) = (j <? sf_main s)) as -> by lia.
             destruct it as [b|t g dg|g]; try (split; [cbn; lia|reflexivity]).
             destruct (Nat.eqb_spec f g) as [->|Hfg]; [exfalso; apply Hne; exact (in_once _ _ _ Hj Hm)|]. split; [cbn; lia|reflexivity].
        * apply (bcd_done s i it it1 Hi Hm HQ Er). intros f dg ->. destruct (Hvd f dg eq_refl) as [H1 H2]. unfold b_vld in H1.
          split; [destruct (b_st (sf_bcd s)); congruence|]. symmetry in H2. apply Nat.eqb_eq in H2. exact H2.
    - (* inside of an item *)
      unfold Inv. rewrite frames_snoc, rest_snoc, app_nil_r. fold n. split; [exact HA'|].
      exists it, (part ++ [x]). unfold s'. cbn [sf_main sf_char sf_bcd]. split; [exact Hm|]. split; [|split; [|split]].
      + rewrite HB. change [Some x] with (map Some [x]). rewrite <- map_app, <- app_assoc. rewrite Ek by exact Hlast. reflexivity.
      + destruct it as [b|t g dg|g]; [| |exact Hpart].
        1, 2: rewrite winc_small; [exact Hpart|]; pose proof (char_small _ _ Hm I); lia.
      + intros j f Hj. destruct (HC j f Hj) as [E2 E3]. rewrite Ef, Er', app_length, E2. split.
        * destruct it as [b|t g dg|g]; try (cbn; lia). rewrite andb_false_r. cbn. lia.
        * intros Hne. rewrite (E3 Hne). destruct it as [b|t g dg|g]; try reflexivity.
          destruct (Nat.eqb_spec f g) as [->|Hfg]; [exfalso; apply Hne; exact (in_once _ _ _ Hj Hm)|]. reflexivity.
      + apply (bcd_wait s i it Hi Hm HQ).
        * intros f dg -> Hfin _. destruct (Hvd f dg eq_refl) as [_ H]. lia.
        * intros f dg -> _. destruct (Hvd f dg eq_refl) as [H _]. unfold b_vld in H. destruct (b_st (sf_bcd s)); congruence.
  Qed.

  Lemma Inv_init bin0 : Inv (sf_init D bin0) [] (fun _ => []).
  Proof.
    unfold Inv. cbn [frames rest length]. split; [lia|]. destruct items as [|it l] eqn:E; [destruct HE as [H _]; congruence|].
    exists it, []. cbn [sf_main sf_char sf_bcd sf_init]. split; [reflexivity|]. split; [reflexivity|]. split; [|split].
    - pose proof HE as (_ & H & _). apply Forall_inv in H. destruct it as [b|t f d|f]; [split; [cbn [item_elaborates item_text] in *; lia|reflexivity]|split; [rewrite item_text_num, num_text_length; cbn [item_elaborates] in H; lia|reflexivity]|reflexivity].
    - intros j f _. split; [reflexivity|]. reflexivity.
    - exists None. split; [apply b2b_start|]. destruct it as [b|t f d|f]; try reflexivity. destruct t; try reflexivity. split; [discriminate|lia].
  Qed.

  Lemma Inv_run is bin0 : (forall i, In i is -> forall f, si_num i f = num f) ->
    let t := trace step (sf_init D bin0) is in Inv (final step (sf_init D bin0) is) (out_words t) (fun f => in_words f t).
  Proof.
    induction is as [|i is IH] using rev_ind; intros Hok.
    - apply Inv_init.
    - cbv zeta. rewrite final_snoc, trace_snoc. set (s := final step (sf_init D bin0) is) in *. clearbody s.
      specialize (IH (fun j Hj => Hok j (in_or_app _ _ _ (or_introl Hj)))). cbv zeta in IH.
      pose proof (Inv_step s _ _ i (Hok i (in_or_app is [i] i (or_intror (in_eq i [])))) IH) as H.
      cbn [sf_step fst snd]. unfold out_words, in_words. rewrite flat_map_app. cbn [flat_map fst snd]. rewrite app_nil_r.
      unfold ow_add, iw_add in H. unfold Inv in *. unfold out_words, in_words in H.
      assert (E : forall f, flat_map (fun io : sf_in * sf_out => if si_valid (fst io) f && so_ready (snd io) f then [(si_data (fst io) f, si_last (fst io) f)] else []) (trace step (sf_init D bin0) is ++ [(i, sf_o items fw s i)])
        = flat_map (fun io : sf_in * sf_out => if si_valid (fst io) f && so_ready (snd io) f then [(si_data (fst io) f, si_last (fst io) f)] else []) (trace step (sf_init D bin0) is) ++ (if si_valid i f && so_ready (sf_o items fw s i) f then [(si_data i f, si_last i f)] else [])).
      { intros f. rewrite flat_map_app. cbn [flat_map fst snd]. rewrite app_nil_r. reflexivity. }
      destruct H as (HA & it & part & Hm & HB & HP & HC & HQ). split.
      + intros k Hk. rewrite (HA k Hk). f_equal. f_equal. apply text_ext. intros f _. rewrite E. reflexivity.
      + exists it, part. split; [exact Hm|]. split; [|split; [|split; [|exact HQ]]].
        * rewrite HB. f_equal. f_equal. apply text_ext. intros f _. rewrite E. reflexivity.
        * destruct it; try exact HP. rewrite E. exact HP.
        * intros j f Hj. rewrite E. exact (HC j f Hj).
  Qed.

  Lemma c151 is bin0 : (forall i, In i is -> forall f, si_num i f = num f) -> printed items num (trace step (sf_init D bin0) is).
  Proof.
    intros Hok. destruct (Inv_run is bin0 Hok) as (HA & it & part & Hm & HB & HP & HC & _). split; [exact HA|].
    exists (sf_main (final step (sf_init D bin0) is)), it, part. split; [exact Hm|]. split; [exact HB|]. split; [|exact HC].
    destruct it as [b|t f d|f]; [| |exact HP]; eexists; exact HP.
  Qed.

  (** * progress *)
  Definition mu (b : b2b) : nat := match b_st b with BIdle => W + 1 | BBusy => W - b_cnt b | BFin => 0 end.
  Lemma progress js : forall s ow iw, Inv s ow iw -> (forall i, In i js -> forall f, si_num i f = num f) ->
    (forall i, In i js -> si_ready i = true /\ forall f, si_valid i f = true) -> mu (sf_bcd s) < length js ->
    out_words (trace step s js) <> [].
  Proof.
    induction js as [|i js IH]; intros s ow iw HI Hn Hr Hl; [cbn in Hl; lia|].
    destruct (Hr i (or_introl eq_refl)) as [Er Ev]. rewrite trace_cons. unfold out_words. cbn [flat_map fst snd].
    destruct (so_valid (sf_o items fw s i)) eqn:Eo.
    - cbn [sf_step snd]. rewrite Eo, Er. discriminate.
    - cbn [sf_step snd fst]. rewrite Eo. cbn [andb app]. apply (IH _ _ _ (Inv_step s ow iw i (Hn i (or_introl eq_refl)) HI)).
      + intros j Hj. apply Hn. right. exact Hj.
      + intros j Hj. apply Hr. right. exact Hj.
      + destruct HI as (_ & it & part & Hm & _ & _ & _ & HQ).
        unfold sf_o in Eo. unfold sf_next. destruct (sf_group items fw s i) as [[v l] d] eqn:Eg. cbn [so_valid] in Eo. subst v. cbn [sf_bcd].
        unfold sf_group in Eg. rewrite Hm in Eg. destruct it as [b|t f dg|f]; [discriminate| |injection Eg as E _ _; rewrite Ev in E; discriminate].
        destruct (tbl_eqb t Td) eqn:Et; [|discriminate]. assert (t = Td) by (destruct t; try discriminate; reflexivity). subst t.
        injection Eg as E _ _. unfold b_vld in E. destruct HQ as (p & [_ HI] & _ & Hc). unfold sf_bcd_in. rewrite Hm. unfold mu in *. cbn [length] in Hl.
        unfold b2b_step. destruct (b_st (sf_bcd s)); [| |discriminate]; cbn [fst b_st b_cnt bi_vld].
        * assert (sf_char s = 0) as -> by (destruct (sf_char s); [reflexivity|specialize (Hc ltac:(lia)); discriminate]). cbn [Nat.eqb]. lia.
        * destruct p as [x|]; [|contradiction]. destruct HI as [Hlt _]. destruct (Nat.eqb_spec (b_cnt (sf_bcd s)) (W - 1)) as [E2|E2]; [lia|].
          rewrite (b2b_cnt_wrap W D) by lia. lia.
  Qed.

  Lemma c151_progress is bin0 js : (forall i, In i (is ++ js) -> forall f, si_num i f = num f) ->
    (forall i, In i js -> si_ready i = true /\ forall f, si_valid i f = true) -> W + 2 <= length js ->
    out_words (trace step (final step (sf_init D bin0) is) js) <> [].
  Proof.
    intros Hn Hr Hl. eapply progress.
    - exact (Inv_run is bin0 (fun i Hi => Hn i (in_or_app _ _ _ (or_introl Hi)))).
    - intros i Hi. exact (Hn i (in_or_app _ _ _ (or_intror Hi))).
    - exact Hr.
    - unfold mu. destruct (b_st _); lia.
  Qed.
End P.
