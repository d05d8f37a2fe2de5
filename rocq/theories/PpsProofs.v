From Coq Require Import ZArith Lia.
From Verif Require Import Base PpsModel PpsSpec.

Definition stop (l : list ch) : Prop := match l with [] => True | c :: _ => is_sp c = true \/ is_sign c = true end.
Lemma star_app : forall f a r, forallb f a = true -> match r with [] => True | c :: _ => f c = false end -> star f (a ++ r) = (a, r).
Proof.
  intros f a r. induction a as [|c a IH]; intros Ha Hr.
  - destruct r as [|c r]; [reflexivity|]. cbn. rewrite Hr. reflexivity.
  - cbn [forallb] in Ha. apply andb_prop in Ha. destruct Ha as (Hc & Ha). cbn [app star]. rewrite Hc, IH by assumption. reflexivity.
Qed.
Lemma sp_all : forall n, forallb is_sp (repeat Sp n) = true. Proof. induction n; [reflexivity|exact IHn]. Qed.
Lemma d_all : forall l, forallb is_d (map D l) = true. Proof. induction l; [reflexivity|exact IHl]. Qed.
Definition sgn (s : option bool) : list ch := match s with None => [] | Some false => [Plus] | Some true => [Minus] end.
Definition pw (p : power) : list ch := match p with Const => [] | Px => [X] | Pxn ds => X :: Hat :: map D ds end.


Lemma stop_cases : forall r, stop r -> r = [] \/ (exists r', r = Sp :: r') \/ (exists r', r = Plus :: r') \/ (exists r', r = Minus :: r').
Proof. intros [|c r] H; [left; reflexivity|]. right. destruct c; cbn in H; destruct H; try discriminate; eauto. Qed.
Ltac stops H := destruct (stop_cases _ H) as [->|[(? & ->)|[(? & ->)|(? & ->)]]].
Lemma match_body : forall s a ds p r, stop r -> (p = Const -> ds <> []) ->
  term_match (sgn s ++ repeat Sp a ++ map D ds ++ pw p ++ r) = (sgn s ++ repeat Sp a ++ map D ds, pw p, r).
Proof.
  intros s a ds p r Hr Hp. unfold term_match.
  assert (E1 : opt is_sign (sgn s ++ repeat Sp a ++ map D ds ++ pw p ++ r) = (sgn s, repeat Sp a ++ map D ds ++ pw p ++ r)).
  { destruct s as [[|]|]; [reflexivity..|]. destruct a; [|reflexivity]. destruct ds; [|reflexivity]. destruct p; [|reflexivity..].
    exfalso. apply Hp; reflexivity. }
  rewrite E1.
  rewrite (star_app is_sp (repeat Sp a)); [|apply sp_all|destruct ds; [|reflexivity]; destruct p; [exfalso; apply Hp; reflexivity|reflexivity..]].
  rewrite (star_app is_d (map D ds)); [|apply d_all|destruct p; [cbn [pw app]; stops Hr; reflexivity || exact I|reflexivity..]].
  assert (E4 : opt is_dot (pw p ++ r) = ([], pw p ++ r)) by (destruct p; [cbn [pw app]; stops Hr; reflexivity|reflexivity..]). rewrite E4.
  assert (E5 : star is_d (pw p ++ r) = ([], pw p ++ r)) by (destruct p; [cbn [pw app]; stops Hr; reflexivity|reflexivity..]). rewrite E5.
  rewrite !app_nil_r. destruct p as [| |es]; cbn [pw app].
  - stops Hr; reflexivity.
  - stops Hr; reflexivity.
  - cbn [opt is_x is_hat]. rewrite (star_app is_d (map D es)); [reflexivity|apply d_all|stops Hr; reflexivity || exact I].
Qed.
Lemma match_space : forall b r, match r with c :: _ => is_sign c = true | [] => False end -> 0 < b -> term_match (repeat Sp b ++ r) = (repeat Sp b, [], r).
Proof.
  intros b r Hr Hb. unfold term_match. destruct b; [lia|]. change (opt is_sign (repeat Sp (S b) ++ r)) with (@nil ch, repeat Sp (S b) ++ r).
  destruct r as [|c r]; [contradiction|].
  rewrite star_app; [|apply sp_all|destruct c; cbn in Hr |- *; congruence]. cbv beta iota.
  assert (E : star is_d (c :: r) = ([], c :: r)) by (destruct c; cbn in Hr; try discriminate; reflexivity). rewrite E. cbv beta iota.
  assert (E4 : opt is_dot (c :: r) = ([], c :: r)) by (destruct c; cbn in Hr; try discriminate; reflexivity). rewrite E4. cbv beta iota. rewrite E.
  assert (E5 : opt is_x (c :: r) = ([], c :: r)) by (destruct c; cbn in Hr; try discriminate; reflexivity). rewrite E5. cbv beta iota.
  assert (E6 : opt is_hat (c :: r) = ([], c :: r)) by (destruct c; cbn in Hr; try discriminate; reflexivity). rewrite E6. cbv beta iota.
  rewrite E. rewrite !app_nil_r. reflexivity.
Qed.

(** strip *)
Lemma strip_ends : forall a x, match x with c :: _ => is_sp c = false | [] => True end -> match rev x with c :: _ => is_sp c = false | [] => True end ->
  strip (repeat Sp a ++ x) = x.
Proof.
  intros a x H1 H2. unfold strip. rewrite star_app; [|apply sp_all|exact H1]. cbn [snd].
  rewrite <- (app_nil_l (rev x)). rewrite star_app; [|reflexivity|exact H2]. cbn [snd]. apply rev_involutive.
Qed.
Lemma strip_tail : forall c a, is_sp c = false -> strip (c :: repeat Sp a) = [c].
Proof.
  intros c a H. unfold strip. cbn [star]. rewrite H. cbn [snd rev]. rewrite star_app; [reflexivity| |exact H].
  rewrite forallb_forall. intros x Hx. rewrite <- in_rev in Hx. apply repeat_spec in Hx. subst. reflexivity.
Qed.
Lemma rev_d : forall ds, match rev (map D ds) with c :: _ => is_sp c = false | [] => True end.
Proof. intros ds. rewrite <- map_rev. destruct (rev ds); [exact I|reflexivity]. Qed.
Lemma last_d : forall x ds, ds <> [] -> match rev (x ++ map D ds) with c :: _ => is_sp c = false | [] => True end.
Proof.
  intros x ds H. rewrite rev_app_distr. rewrite <- map_rev. destruct (rev ds) eqn:E; [|reflexivity].
  exfalso. apply H. rewrite <- (rev_involutive ds), E. reflexivity.
Qed.

(** numbers *)
Lemma dval_dec : forall ds a, fold_left dval (map D ds) a = fold_left (fun a d => a * 10 + d) ds a.
Proof. induction ds; intros; [reflexivity|]. cbn [map fold_left dval]. apply IHds. Qed.
Lemma py_int_digits : forall s ds, ds <> [] -> py_int (sgn s ++ map D ds) = Some (match s with Some true => Z.opp (Z.of_nat (decimal ds)) | _ => Z.of_nat (decimal ds) end).
Proof.
  intros s ds H. unfold py_int. destruct ds as [|d ds]; [congruence|].
  assert (E : opt is_sign (sgn s ++ map D (d :: ds)) = (sgn s, map D (d :: ds))) by (destruct s as [[|]|]; reflexivity). rewrite E. cbv beta iota.
  rewrite d_all. cbn [map]. change (D d :: map D ds) with (map D (d :: ds)). rewrite dval_dec. destruct s as [[|]|]; reflexivity.
Qed.

Definition body_n (t : term) : list ch := match t_sign t with None => repeat Sp (t_before t) | Some _ => sgn (t_sign t) ++ repeat Sp (t_after t) end ++ map D (t_coef t).
Lemma n_value : forall t, proper_term t -> readable t ->
  parse_n (strip (body_n t)) = Some (coef_of t) /\ (t_pow t = Const -> strip (body_n t) <> []).
Proof.
  intros [b s a ds p] (H1 & _ & H3 & H4) Hr. unfold body_n, coef_of, readable in *. cbn [t_before t_sign t_after t_coef t_pow] in *.
  destruct s as [s|].
  - clear H3. destruct ds as [|d ds].
    + cbn [map]. rewrite app_nil_r. destruct s; cbn [sgn app]; rewrite strip_tail by reflexivity; (split; [reflexivity|discriminate]).
    + assert (Hs : strip ((sgn (Some s) ++ repeat Sp a) ++ map D (d :: ds)) = (sgn (Some s) ++ repeat Sp a) ++ map D (d :: ds)).
      { rewrite <- (app_nil_l ((sgn (Some s) ++ repeat Sp a) ++ map D (d :: ds))) at 1. change [] with (repeat Sp 0).
        apply strip_ends; [destruct s; reflexivity|]. apply last_d. discriminate. }
      rewrite Hs. split; [|destruct s; discriminate].
      destruct Hr as [Hr|[Hr|[(Hr & Hd)|(Hr & Hd)]]]; try discriminate.
      * injection Hr as ->. injection Hd as -> ->. cbn [sgn app]. unfold parse_n.
        assert (E : plus_one (Plus :: repeat Sp a ++ map D [1]) = true).
        { unfold plus_one. cbn [star is_sp snd]. rewrite star_app; [reflexivity|apply sp_all|reflexivity]. }
        rewrite E. destruct (repeat Sp a ++ map D [1]); reflexivity.
      * subst a. cbn [repeat]. rewrite app_nil_r.
        assert (E : parse_n (sgn (Some s) ++ map D (d :: ds)) = py_int (sgn (Some s) ++ map D (d :: ds))).
        { destruct s; cbn [sgn app map parse_n]; [reflexivity|]. unfold plus_one. cbn [star is_sp snd]. specialize (Hd eq_refl). cbn [hd] in Hd.
          destruct d as [|[|d]]; [reflexivity|congruence|reflexivity]. }
        rewrite E, py_int_digits by discriminate. reflexivity.
  - specialize (H3 eq_refl). subst a. destruct ds as [|d ds].
    + cbn [map]. rewrite strip_ends by exact I. split; [reflexivity|]. intros E. exfalso. apply H1; [exact E|reflexivity].
    + rewrite strip_ends; [|reflexivity|apply rev_d]. split; [|discriminate]. cbn [map parse_n].
      change (D d :: map D ds) with (sgn None ++ map D (d :: ds)).
      assert (E : plus_one (sgn None ++ map D (d :: ds)) = false) by reflexivity. rewrite E. rewrite py_int_digits by discriminate. reflexivity.
Qed.
Lemma p_strip : forall p, strip (pw p) = pw p.
Proof.
  intros p. change (pw p) with (repeat Sp 0 ++ pw p) at 1. apply strip_ends; destruct p as [| |ds]; try exact I; try reflexivity.
  cbn [pw]. destruct ds as [|d ds]; [reflexivity|]. change (X :: Hat :: map D (d :: ds)) with ([X; Hat] ++ map D (d :: ds)). apply last_d. discriminate.
Qed.
Lemma p_value : forall t, proper_term t -> parse_p (pw (t_pow t)) = Some (exp_of t).
Proof.
  intros t (_ & H & _). unfold exp_of. destruct (t_pow t) as [| |ds]; [reflexivity..|]. cbn [pw parse_p opt is_hat snd].
  specialize (H ds eq_refl). destruct ds as [|d ds]; [congruence|]. cbn [map]. change (D d :: map D ds) with (map D (d :: ds)). rewrite dval_dec. reflexivity.
Qed.
Lemma term_value : forall t d, proper_term t -> readable t -> pp_term (Some d) (body_n t, pw (t_pow t)) = Some (dict_add (exp_of t) (coef_of t) d).
Proof.
  intros t d Hp Hr. unfold pp_term. cbn [fst snd]. cbv zeta. rewrite p_strip. destruct (n_value t Hp Hr) as (Hn & Hne). rewrite Hn, (p_value t Hp).
  destruct (strip (body_n t)); [|reflexivity]. destruct (t_pow t); cbn [pw]; [|reflexivity..]. exfalso. apply Hne; reflexivity.
Qed.
Lemma space_value : forall b d, pp_term (Some d) (repeat Sp b, []) = Some d.
Proof. intros b d. unfold pp_term. cbn [fst snd]. cbv zeta. rewrite <- (app_nil_r (repeat Sp b)), strip_ends by exact I. reflexivity. Qed.

(** all terms *)
Lemma stop_text : forall l, Forall (fun t => t_sign t <> None) l -> stop (text l).
Proof.
  intros [|t l] H; [exact I|]. inversion H as [|? ? Ht _]; subst. unfold text. cbn [flat_map]. unfold text_of. destruct (t_before t); [|left; reflexivity].
  cbn [repeat app]. destruct (t_sign t) as [[|]|]; [right; reflexivity..|congruence].
Qed.
Lemma app_ne_len : forall (a b : list ch), a <> [] -> length b < length (a ++ b).
Proof. intros a b H. rewrite app_length. destruct a; [congruence|]. cbn [length]. lia. Qed.
Lemma find_step : forall k l n p r, term_match l = (n, p, r) -> length r < length l -> findall (S k) l = (n, p) :: findall k r.
Proof. intros k l n p r E H. cbn [findall]. rewrite E. destruct (Nat.ltb_spec (length r) (length l)); [reflexivity|lia]. Qed.
Lemma body_match : forall s a ds p r, stop r -> (p = Const -> ds <> []) -> forall k,
  length (sgn s ++ repeat Sp a ++ map D ds ++ pw p ++ r) < S k ->
  findall (S k) (sgn s ++ repeat Sp a ++ map D ds ++ pw p ++ r) = (sgn s ++ repeat Sp a ++ map D ds, pw p) :: findall k r /\ length r < k.
Proof.
  intros s a ds p r Hr Hp k Hk.
  assert (Hl : length r < length (sgn s ++ repeat Sp a ++ map D ds ++ pw p ++ r)).
  { rewrite !app_assoc. apply app_ne_len. destruct p; cbn [pw]; [|intros E; apply (f_equal (@length ch)) in E; rewrite !app_length in E; cbn [length] in E; lia..].
    rewrite app_nil_r. specialize (Hp eq_refl). destruct ds; [congruence|]. intros E; apply (f_equal (@length ch)) in E; rewrite !app_length in E; cbn [length map] in E; lia. }
  split; [|lia]. apply find_step; [apply match_body; assumption|exact Hl].
Qed.
Lemma term_step : forall t r d k, proper_term t -> readable t -> stop r -> length (text_of t ++ r) < k ->
  exists k', fold_left pp_term (findall k (text_of t ++ r)) (Some d) = fold_left pp_term (findall k' r) (Some (dict_add (exp_of t) (coef_of t) d)) /\ length r < k'.
Proof.
  intros t r d k Hp Hr Hs Hk.
  destruct k as [|k]; [lia|]. pose proof (term_value t d Hp Hr) as Ht. unfold body_n in Ht. destruct Hp as (H1 & H2 & H3 & H4).
  unfold text_of in *. rewrite <- !app_assoc in Hk |- *. fold (pw (t_pow t)) in Hk |- *. destruct (t_sign t) as [s|] eqn:Es.
  - change (if s then [Minus] else [Plus]) with (sgn (Some s)) in Hk |- *.
    destruct (t_before t) as [|b] eqn:Eb.
    + cbn [repeat app] in Hk |- *. destruct (body_match (Some s) (t_after t) (t_coef t) (t_pow t) r Hs H1 k Hk) as (E & Hl).
      exists k. split; [|exact Hl]. rewrite E. cbn [fold_left]. rewrite app_assoc. rewrite Ht. reflexivity.
    + rewrite (find_step k _ (repeat Sp (S b)) [] (sgn (Some s) ++ repeat Sp (t_after t) ++ map D (t_coef t) ++ pw (t_pow t) ++ r));
        [|apply match_space; [destruct s; reflexivity|lia]|apply app_ne_len; discriminate].
      cbn [fold_left]. rewrite space_value. rewrite app_length, repeat_length in Hk. destruct k as [|k]; [lia|].
      destruct (body_match (Some s) (t_after t) (t_coef t) (t_pow t) r Hs H1 k) as (E & Hl); [lia|].
      exists k. split; [|exact Hl]. rewrite E. cbn [fold_left]. rewrite app_assoc. rewrite Ht. reflexivity.
  - specialize (H3 eq_refl). rewrite H3 in *. cbn [repeat app] in Hk |- *.
    destruct (body_match None (t_before t) (t_coef t) (t_pow t) r Hs H1 k Hk) as (E & Hl). cbn [sgn app] in E.
    exists k. split; [|exact Hl]. rewrite E. cbn [fold_left]. rewrite Ht. reflexivity.
Qed.
Definition dict_of (l : list term) (d : list (nat * Z)) : list (nat * Z) := fold_left (fun d t => dict_add (exp_of t) (coef_of t) d) l d.
Lemma terms_step : forall l d k, Forall proper_term l -> Forall readable l -> Forall (fun t => t_sign t <> None) (tl l) -> length (text l) < k ->
  fold_left pp_term (findall k (text l)) (Some d) = Some (dict_of l d).
Proof.
  induction l as [|t l IH]; intros d k Hp Hr Hs Hk.
  - destruct k; [cbn in Hk; lia|]. reflexivity.
  - inversion Hp; subst. inversion Hr; subst. cbn [tl] in Hs. unfold text in Hk |- *. cbn [flat_map] in Hk |- *. fold (text l) in *.
    destruct (term_step t (text l) d k) as (k' & E & Hk'); try assumption; [apply stop_text; exact Hs|].
    rewrite E. apply IH; try assumption. destruct l; [constructor|]. inversion Hs; assumption.
Qed.

(** the dictionary *)
Definition dget (d : list (nat * Z)) (k : nat) : Z := fold_right (fun x a => if fst x =? k then (snd x + a)%Z else a) 0%Z d.
Lemma dget_add : forall p n d k, dget (dict_add p n d) k = if p =? k then (n + dget d k)%Z else dget d k.
Proof.
  intros p n d k. induction d as [|(p', n') d IH].
  - cbn. destruct (p =? k); reflexivity.
  - cbn [dict_add]. destruct (Nat.eqb_spec p' p) as [->|Hne]; cbn [dget fold_right fst snd]; fold (dget d k).
    + destruct (p =? k); [lia|reflexivity].
    + fold (dget (dict_add p n d) k). rewrite IH. destruct (Nat.eqb_spec p' k); destruct (Nat.eqb_spec p k); lia.
Qed.
Lemma keys_add : forall p n d x, In x (map fst (dict_add p n d)) -> x = p \/ In x (map fst d).
Proof.
  intros p n d x. induction d as [|(p', n') d IH]; cbn [dict_add map fst In]; [intuition|].
  destruct (p' =? p); cbn [map fst In]; intuition.
Qed.
Lemma nodup_add : forall p n d, NoDup (map fst d) -> NoDup (map fst (dict_add p n d)).
Proof.
  intros p n d. induction d as [|(p', n') d IH]; intros H; [constructor; [intros []|constructor]|].
  cbn [dict_add]. inversion H as [|? ? Hn Hd]; subst. destruct (Nat.eqb_spec p' p) as [->|Hne]; [exact H|].
  cbn [map fst]. constructor; [|apply IH; exact Hd]. intros Hi. apply keys_add in Hi. destruct Hi as [Hi|Hi]; [congruence|]. apply Hn. exact Hi.
Qed.
Lemma dict_of_get : forall l d k, dget (dict_of l d) k = (coef_at l k + dget d k)%Z.
Proof.
  induction l as [|t l IH]; intros d k; [reflexivity|]. cbn [dict_of fold_left]. fold (dict_of l (dict_add (exp_of t) (coef_of t) d)). rewrite IH, dget_add.
  cbn [coef_at fold_right]. fold (coef_at l k). destruct (exp_of t =? k); lia.
Qed.
Lemma dict_of_keys : forall l d x, In x (map fst (dict_of l d)) -> In x (map exp_of l) \/ In x (map fst d).
Proof.
  induction l as [|t l IH]; intros d x H; [right; exact H|]. cbn [dict_of fold_left] in H. apply IH in H. cbn [map In].
  destruct H as [H|H]; [intuition|]. apply keys_add in H. intuition.
Qed.
Lemma dict_of_nodup : forall l d, NoDup (map fst d) -> NoDup (map fst (dict_of l d)).
Proof. induction l as [|t l IH]; intros d H; [exact H|]. cbn [dict_of fold_left]. apply IH. apply nodup_add. exact H. Qed.

(** the list of coefficients *)
Lemma set_nth_ok : forall c k v, k < length c -> exists c', set_nth c k v = Some c' /\ length c' = length c /\ forall j, nth j c' 0%Z = if j =? k then v else nth j c 0%Z.
Proof.
  induction c as [|x c IH]; intros k v Hk; [cbn in Hk; lia|]. destruct k as [|k]; cbn [set_nth].
  - eexists. split; [reflexivity|]. split; [reflexivity|]. intros [|j]; reflexivity.
  - destruct (IH k v) as (c' & E & Hl & Hn); [cbn [length] in Hk; lia|]. rewrite E. eexists. split; [reflexivity|]. split; [cbn [length]; lia|].
    intros [|j]; [reflexivity|]. cbn [nth Nat.eqb]. apply Hn.
Qed.
Lemma store_ok : forall d c, NoDup (map fst d) -> (forall x, In x (map fst d) -> x < length c) ->
  exists c', fold_left pp_store d (Some c) = Some c' /\ length c' = length c /\ forall j, nth j c' 0%Z = if existsb (Nat.eqb j) (map fst d) then dget d j else nth j c 0%Z.
Proof.
  induction d as [|(p, n) d IH]; intros c Hd Hk.
  - exists c. split; [reflexivity|]. split; reflexivity.
  - inversion Hd as [|? ? Hn Hd']; subst. cbn [fold_left pp_store fst snd]. destruct (set_nth_ok c p n) as (c1 & E & Hl & Hv); [apply Hk; left; reflexivity|].
    rewrite E. destruct (IH c1 Hd') as (c' & E' & Hl' & Hv'); [intros x Hx; rewrite Hl; apply Hk; right; exact Hx|].
    exists c'. split; [exact E'|]. split; [lia|]. intros j. rewrite Hv', Hv. cbn [map fst existsb]. cbn [dget fold_right fst snd]. fold (dget d j).
    assert (Hz : ~ In j (map fst d) -> dget d j = 0%Z).
    { intros Hj. clear -Hj. induction d as [|(p, n) d IH]; [reflexivity|]. cbn [dget fold_right fst snd]. fold (dget d j). cbn [map fst In] in Hj.
      destruct (Nat.eqb_spec p j); [exfalso; apply Hj; left; assumption|]. apply IH. intros H. apply Hj. right. exact H. }
    cbn [fst] in Hn. destruct (Nat.eqb_spec j p) as [->|Hne]; cbn [orb].
    + rewrite Nat.eqb_refl. destruct (existsb (Nat.eqb p) (map fst d)) eqn:Ex.
      * apply existsb_exists in Ex. destruct Ex as (y & Hy & He). apply Nat.eqb_eq in He. subst y. contradiction.
      * rewrite (Hz Hn). lia.
    + destruct (Nat.eqb_spec p j); [congruence|]. reflexivity.
Qed.
Lemma dget_out : forall d j, existsb (Nat.eqb j) (map fst d) = false -> dget d j = 0%Z.
Proof.
  induction d as [|(p, n) d IH]; intros j H; [reflexivity|]. cbn [map fst existsb] in H. apply Bool.orb_false_elim in H. destruct H as (H1 & H2).
  cbn [dget fold_right fst snd]. fold (dget d j). rewrite Nat.eqb_sym, H1. apply IH. exact H2.
Qed.
Lemma poly_ok : forall l width, proper_text l -> Forall readable l -> Forall (fun t => exp_of t < width) l -> parse_poly (text l) width = Some (meaning l width).
Proof.
  intros l width (Hp & Hs) Hr He. unfold parse_poly. rewrite terms_step by (try assumption; lia).
  destruct (store_ok (dict_of l []) (repeat 0%Z width)) as (c' & E & Hl & Hv).
  - apply dict_of_nodup. constructor.
  - intros x Hx. rewrite repeat_length. apply dict_of_keys in Hx. destruct Hx as [Hx|[]]. apply in_map_iff in Hx. destruct Hx as (t & <- & Ht).
    rewrite Forall_forall in He. apply He. exact Ht.
  - rewrite E. f_equal. apply (nth_ext _ _ 0%Z 0%Z).
    + rewrite Hl, repeat_length. unfold meaning. rewrite map_length, seq_length. reflexivity.
    + intros j Hj. rewrite Hv. rewrite Hl, repeat_length in Hj. unfold meaning.
      rewrite (nth_indep (map (coef_at l) (seq 0 width)) 0%Z (coef_at l 0)) by (rewrite map_length, seq_length; exact Hj). rewrite map_nth, seq_nth by exact Hj. cbn [Nat.add].
      destruct (existsb (Nat.eqb j) (map fst (dict_of l []))) eqn:Ex.
      * rewrite dict_of_get. cbn. lia.
      * apply dget_out in Ex. rewrite dict_of_get in Ex. cbn in Ex. rewrite nth_repeat. lia.
Qed.

(** 7x^2 + 6x - 5 (docstring) *)
Definition doc_text : list term := [mk_t 0 None 0 [7] (Pxn [2]); mk_t 1 (Some false) 1 [6] Px; mk_t 1 (Some true) 1 [5] Const].
Lemma doc_refuted : exists l width, proper_text l /\ Forall (fun t => exp_of t < width) l /\ parse_poly (text l) width = None.
Proof.
  exists doc_text, 3. split; [|split; [repeat constructor|reflexivity]].
  split; [|repeat constructor; discriminate].
  repeat (apply Forall_cons; [repeat split; try discriminate; try (intros ? [= <-]; discriminate); repeat constructor|]). apply Forall_nil.
Qed.
(** x^2+12x *)
Lemma silent_refuted : exists l width c, proper_text l /\ Forall (fun t => exp_of t < width) l /\ parse_poly (text l) width = Some c /\ c <> meaning l width.
Proof.
  exists [mk_t 0 None 0 [] (Pxn [2]); mk_t 0 (Some false) 0 [1; 2] Px], 3. eexists.
  split; [|split; [repeat constructor|split; [reflexivity|vm_compute; discriminate]]].
  split; [|repeat constructor; discriminate].
  repeat (apply Forall_cons; [repeat split; try discriminate; try (intros ? [= <-]; discriminate); repeat constructor|]). apply Forall_nil.
Qed.
