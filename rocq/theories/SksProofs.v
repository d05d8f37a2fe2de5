From Verif Require Import Base BaseFacts SksModel SksSpec.
Local Open Scope nat_scope.

Definition pbits (p : option (nat * bool)) : list bool := match p with None => [] | Some (l, v) => repeat v (l / 8) end.
Definition pok (p : option (nat * bool)) : Prop := match p with None => True | Some (l, _) => 0 < l /\ l mod 8 = 0 end.
Lemma push_ok : forall res l v, 0 < l /\ l mod 8 = 0 -> push_mask res l v = Some (res ++ [repeat v (l / 8)]).
Proof. intros res l v (H1 & H2). unfold push_mask. rewrite H2. apply Nat.ltb_lt in H1. rewrite H1. reflexivity. Qed.
Lemma merge : forall a b (v : bool), a mod 8 = 0 -> b mod 8 = 0 -> repeat v ((a + b) / 8) = repeat v (a / 8) ++ repeat v (b / 8) /\ (a + b) mod 8 = 0.
Proof.
  intros a b v Ha Hb. apply Nat.mod_divides in Ha; [|discriminate]. apply Nat.mod_divides in Hb; [|discriminate]. destruct Ha as (x & ->), Hb as (y & ->).
  rewrite <- Nat.mul_add_distr_l. rewrite !(Nat.mul_comm 8), !Nat.div_mul, Nat.mod_mul by discriminate. split; [apply repeat_app|reflexivity].
Qed.
Lemma loop_ok : forall l res prev, Forall item_ok l -> pads_after l -> pok prev -> (prev = None \/ match l with Sig _ :: _ => False | _ => True end) ->
  option_map (@concat bool) (vec_loop l res prev) = Some (concat res ++ pbits prev ++ flat_map mask_of l).
Proof.
  induction l as [|x l IH]; intros res prev Hf Hp Hk Hs.
  - cbn [vec_loop flat_map]. rewrite app_nil_r. destruct prev as [(pl, pv)|]; [|cbn; rewrite app_nil_r; reflexivity].
    rewrite push_ok by exact Hk. cbn [option_map]. rewrite concat_app. cbn [concat pbits]. rewrite app_nil_r. reflexivity.
  - inversion Hf as [|? ? Hx Hf']; subst. destruct x as [len v|bits]; cbn [vec_loop flat_map mask_of].
    + cbn [pads_after] in Hp. destruct Hp as (Hn & Hp). assert (Hn' : match l with Sig _ :: _ => False | _ => True end) by (destruct l as [|[]]; auto).
      cbn [item_ok] in Hx. destruct prev as [(pl, pv)|].
      * cbn [pok] in Hk. destruct (Bool.eqb pv v) eqn:E.
        -- apply Bool.eqb_prop in E. subst pv. destruct (merge pl len v (proj2 Hk) (proj2 Hx)) as (M1 & M2).
           rewrite IH; [|exact Hf'|exact Hp|cbn [pok]; split; [lia|exact M2]|right; exact Hn']. cbn [pbits]. rewrite M1, <- !app_assoc. reflexivity.
        -- rewrite push_ok by exact Hk. rewrite IH; [|exact Hf'|exact Hp|exact Hx|right; exact Hn']. rewrite concat_app. cbn [concat pbits]. rewrite app_nil_r, <- !app_assoc. reflexivity.
      * destruct Hx as (Hx1 & Hx2). pose proof Hx1 as Hl. apply Nat.ltb_lt in Hl. rewrite Hl. rewrite IH; [|exact Hf'|exact Hp|split; assumption|right; exact Hn']. reflexivity.
    + destruct Hs as [Hs|Hs]; [subst prev|destruct Hs]. rewrite IH; [|exact Hf'|exact Hp|exact I|left; reflexivity]. rewrite concat_app. cbn [concat pbits app]. rewrite app_nil_r, <- app_assoc. reflexivity.
Qed.
Lemma vec_ok : forall l, Forall item_ok l -> pads_after l -> vec_to_signal l = Some (flat_map mask_of l).
Proof. intros l Hf Hp. unfold vec_to_signal. rewrite loop_ok; [reflexivity|exact Hf|exact Hp|exact I|left; reflexivity]. Qed.
Lemma vec_lost : forall len v bits, item_ok (Pad len v) -> vec_to_signal [Pad len v; Sig bits] = Some bits /\ bits <> flat_map mask_of [Pad len v; Sig bits].
Proof.
  intros len v bits (H1 & H2). split.
  - unfold vec_to_signal. cbn [vec_loop]. apply Nat.ltb_lt in H1. rewrite H1. cbn. rewrite app_nil_r. reflexivity.
  - intros E. apply (f_equal (@length bool)) in E. cbn [flat_map mask_of] in E. rewrite !app_length, repeat_length in E. change (length (@nil bool)) with 0 in E.
    pose proof (Nat.div_mod len 8 ltac:(discriminate)) as Hd. rewrite H2 in Hd. set (q := len / 8) in *. clearbody q. lia.
Qed.

(** dictionary *)
Lemma mask_eqb_spec : forall a b, mask_eqb a b = true <-> a = b.
Proof. intros a b. unfold mask_eqb. destruct (list_eq_dec Bool.bool_dec a b); split; congruence. Qed.
Lemma any_app : forall a b, any (a ++ b) = any a || any b.
Proof. intros a b. apply existsb_app. Qed.
(** enabled keys *)
Definition act (d : list (list bool * list bool)) (k : list bool) : Prop := exists ens, In (k, ens) d /\ any ens = true.
Lemma act_add : forall d k en k', act (dict_add k en d) k' <-> act d k' \/ (en = true /\ k' = k).
Proof.
  induction d as [|(k0, ens) d IH]; intros k en k'.
  - cbn [dict_add]. split.
    + intros (e & [H|[]] & He). inversion H; subst. right. cbn in He. rewrite orb_false_r in He. auto.
    + intros [(e & [] & _)|(H1 & H2)]. subst. exists [true]. split; [left; reflexivity|reflexivity].
  - cbn [dict_add]. destruct (mask_eqb k k0) eqn:E.
    + apply mask_eqb_spec in E. subst k0. split.
      * intros (e & [H|H] & He).
        -- inversion H; subst. rewrite any_app in He. apply orb_true_iff in He. destruct He as [He|He].
           ++ left. exists ens. split; [left; reflexivity|exact He].
           ++ right. cbn in He. rewrite orb_false_r in He. auto.
        -- left. exists e. split; [right; exact H|exact He].
      * intros [(e & [H|H] & He)|(H1 & H2)].
        -- inversion H; subst. exists (e ++ [en]). split; [left; reflexivity|]. rewrite any_app, He. reflexivity.
        -- exists e. split; [right; exact H|exact He].
        -- subst. exists (ens ++ [true]). split; [left; reflexivity|]. rewrite any_app. apply orb_true_r.
    + specialize (IH k en k'). split.
      * intros (e & [H|H] & He); [left; exists e; split; [left; exact H|exact He]|].
        destruct (proj1 IH) as [(e' & H1 & H2)|H1]; [exists e; auto|left; exists e'; split; [right; exact H1|exact H2]|right; exact H1].
      * intros [(e & [H|H] & He)|H1].
        -- exists e. split; [left; exact H|exact He].
        -- destruct (proj2 IH) as (e' & H1 & H2); [left; exists e; auto|]. exists e'. split; [right; exact H1|exact H2].
        -- destruct (proj2 IH) as (e' & H2 & H3); [right; exact H1|]. exists e'. split; [right; exact H2|exact H3].
Qed.
Lemma act_dict : forall l d k, act (fold_left (fun d x => dict_add (snd x) (fst x) d) l d) k <-> act d k \/ In (true, k) l.
Proof.
  induction l as [|(en, m) l IH]; intros d k; cbn [fold_left fst snd In]; [tauto|]. rewrite IH, act_add. split; [intros [[H|(H1 & H2)]|H]|intros [H|[H|H]]]; subst; auto. inversion H; subst; auto.
Qed.
Lemma insert_in : forall x l y, In y (insert x l) <-> y = x \/ In y l.
Proof.
  induction l as [|z l IH]; intros y; cbn [insert In]; [intuition|]. destruct (mask_val (fst x) <=? mask_val (fst z))%N; cbn [In]; [intuition|]. rewrite IH. intuition.
Qed.
Lemma sorted_in : forall l y, In y (sorted l) <-> In y l.
Proof. induction l as [|x l IH]; intros y; cbn [sorted fold_right In]; [tauto|]. fold (sorted l). rewrite insert_in, IH. intuition. Qed.
Lemma chain : forall (l : list (list bool * list bool)) init m, (forall k e, In (k, e) l -> any e = true -> k = m) -> (exists e, In (m, e) l /\ any e = true) \/ init = m ->
  fold_left (fun m x => if any (snd x) then fst x else m) l init = m.
Proof.
  induction l as [|(k, e) l IH]; intros init m Ha He; cbn [fold_left fst snd]; [destruct He as [(e & [] & _)|He]; exact He|].
  apply IH; [intros k' e' H; apply (Ha k' e'); right; exact H|].
  destruct (any e) eqn:E; [right; apply (Ha k e); [left; reflexivity|exact E]|].
  destruct He as [(e' & [H|H] & H')|He]; [inversion H; subst; congruence|left; exists e'; auto|right; exact He].
Qed.
Lemma pop_ok : forall d m, act d m -> (forall k, act d k -> k = m) -> pop_mask_value d = Some m.
Proof.
  intros d m (e & H1 & H2) Hu. destruct d as [|(v, ens) [|x d]]; [destruct H1|destruct H1 as [H1|[]]; inversion H1; reflexivity|].
  unfold pop_mask_value. cbv zeta. f_equal. apply chain.
  - intros k e' H He. apply Hu. exists e'. split; [apply sorted_in; exact H|exact He].
  - left. exists e. split; [apply sorted_in; exact H1|exact H2].
Qed.
Lemma pop_sel : forall l m, selects l m -> pop_mask_value (dict_of l) = Some m.
Proof.
  intros l m (H1 & H2). apply pop_ok.
  - apply act_dict. right. exact H1.
  - intros k Hk. apply act_dict in Hk. destruct Hk as [(e & [] & _)|Hk]. apply H2. exact Hk.
Qed.
(** reduce *)
Lemma whole_vec : forall m, vec_to_signal (whole m) = Some m.
Proof. intros m. unfold vec_to_signal. cbn. rewrite app_nil_r. reflexivity. Qed.
Lemma reduce_dict : forall (l : list (bool * stash)) (ms : list (bool * list bool)) ds dk k,
  Forall2 has_mask l ms ->
  (l = [] -> k <> None) ->
  exists k', reduce_loop l ds dk k = Some (fold_left (fun d x => dict_add (snd x) (fst x) d) ms ds, fold_left (fun d x => dict_add (snd x) (fst x) d) ms dk, k').
Proof.
  induction l as [|(en, sk) l IH]; intros ms ds dk k H Hk; inversion H as [|? y ? ms' (E1 & E2 & E3) H']; subst.
  - destruct k as [k|]; [exists k; reflexivity|exfalso; apply Hk; reflexivity].
  - cbn [reduce_loop fst snd] in *. rewrite E2, E3. subst en. destruct y as (en, m). cbn [fst snd fold_left] in *. apply IH; [exact H'|discriminate].
Qed.
Lemma reduce_strb : forall l ms m,
  Forall2 has_mask l ms ->
  selects ms m -> exists keep, reduce_stashes l = Some (m, keep).
Proof.
  intros l ms m H Hs. destruct (reduce_dict l ms [] [] None H) as (k & E).
  - intros ->. inversion H; subst. destruct Hs as ([] & _).
  - unfold reduce_stashes. rewrite E. fold (dict_of ms). rewrite (pop_sel ms m Hs). exists k. reflexivity.
Qed.
Lemma strb_lost : forall strb keep en, strb <> keep -> reduce_stashes [(en, mk_stash (whole strb) (whole keep))] = Some (keep, keep).
Proof. intros strb keep en H. unfold reduce_stashes. cbn [reduce_loop k_strb k_keep]. rewrite !whole_vec. reflexivity. Qed.
Lemma keep_lost : forall a b, a <> b -> reduce_stashes [(true, mk_stash (whole a) (whole a)); (false, mk_stash (whole b) (whole b))] = Some (a, b).
Proof.
  intros a b H. unfold reduce_stashes. cbn [reduce_loop k_strb k_keep]. rewrite !whole_vec.
  change (dict_add b false (dict_add a true [])) with (dict_of [(true, a); (false, b)]). rewrite (pop_sel _ a); [reflexivity|].
  split; [left; reflexivity|]. intros m' [E|[E|[]]]; inversion E; reflexivity.
Qed.
