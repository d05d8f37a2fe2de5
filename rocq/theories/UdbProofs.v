(** Proofs about bundles of USB descriptors. *)
From Verif Require Import Base BaseFacts UdbModel UdbSpec UdbCases.

(** ** search *)
Lemma ud_get_iff p ds : forall k i j d, ud_get p k i ds = Some (j, d) <->
  exists n, j = i + n /\ nth_error ds n = Some d /\ p d = true /\ length (filter p (firstn n ds)) = k.
Proof.
  induction ds as [|x ds IH]; intros k i j d.
  - cbn. split; [discriminate|]. intros (n & _ & H & _). now destruct n.
  - cbn [ud_get]. destruct (p x) eqn:Ep; [destruct k as [|k]|].
    + split.
      * intros H. injection H as <- <-. exists 0. cbn. repeat split; auto; lia.
      * intros (n & -> & Hn & Hd & Hc). destruct n as [|n]; [injection Hn as ->; now rewrite Nat.add_0_r|]. cbn in Hc. rewrite Ep in Hc. discriminate.
    + rewrite IH. split.
      * intros (n & -> & Hn & Hd & Hc). exists (S n). cbn [nth_error firstn filter]. rewrite Ep. cbn [length]. repeat split; auto; lia.
      * intros (n & -> & Hn & Hd & Hc). destruct n as [|n]; [discriminate Hc|]. cbn [nth_error firstn filter] in *. rewrite Ep in Hc. cbn [length] in Hc.
        exists n. repeat split; auto; lia.
    + rewrite IH. split.
      * intros (n & -> & Hn & Hd & Hc). exists (S n). cbn [nth_error firstn filter]. rewrite Ep. repeat split; auto; lia.
      * intros (n & -> & Hn & Hd & Hc). destruct n as [|n]; [injection Hn as ->; congruence|]. cbn [nth_error firstn filter] in *. rewrite Ep in Hc.
        exists n. repeat split; auto; lia.
Qed.
Lemma ud_get_none p ds : forall k i, ud_get p k i ds = None <-> length (filter p ds) <= k.
Proof.
  induction ds as [|x ds IH]; intros k i; cbn [ud_get filter]; [cbn; split; [lia|reflexivity]|].
  destruct (p x); [destruct k as [|k]|]; cbn [length].
  - split; [discriminate|lia].
  - rewrite IH. lia.
  - apply IH.
Qed.
Lemma get_iff p k ds i d : get_descriptor p k ds = Some (i, d) <->
  nth_error ds i = Some d /\ p d = true /\ length (filter p (firstn i ds)) = k.
Proof.
  unfold get_descriptor. rewrite ud_get_iff. split; [intros (n & -> & H); exact H|]. intros H. exists i. split; [reflexivity|exact H].
Qed.
Lemma get_none p k ds : get_descriptor p k ds = None <-> length (filter p ds) <= k.
Proof. apply ud_get_none. Qed.

(** ** bytes *)
Lemma copy_eq ds : forall n, ud_copy n ds = firstn n (all_bytes ds).
Proof.
  unfold all_bytes. induction ds as [|d ds IH]; intros n; cbn [ud_copy map concat]; [now rewrite firstn_nil|]. rewrite firstn_app.
  destruct (Nat.ltb_spec n (length (d_bytes d))) as [H|H].
  - replace (n - length (d_bytes d)) with 0 by lia. now rewrite firstn_O, app_nil_r.
  - destruct (Nat.eqb_spec (length (d_bytes d)) n) as [<-|H1].
    + rewrite Nat.sub_diag, firstn_O, app_nil_r, firstn_all. reflexivity.
    + rewrite IH. f_equal. symmetry. apply firstn_all2. lia.
Qed.
Lemma bytes_eq ds start n : get_descr_bytes ds start n = firstn n (all_bytes (skipn start ds)).
Proof. apply copy_eq. Qed.

(** ** rom *)
Lemma rom_run ds : forall rom tab,
  fst (fold_left rom_step ds (rom, tab)) = rom ++ all_bytes ds /\
  forall t, snd (fold_left rom_step ds (rom, tab)) t = tab t ++ places t (length rom) ds.
Proof.
  induction ds as [|d ds IH]; intros rom tab; cbn [fold_left places].
  - split; [unfold all_bytes; cbn; now rewrite app_nil_r|]. intros t. now rewrite app_nil_r.
  - cbn [rom_step]. destruct (IH (rom ++ d_bytes d) (upd tab (d_type d) (tab (d_type d) ++ [(length rom, length (d_bytes d))]))) as [H1 H2]. split.
    + rewrite H1. unfold all_bytes. cbn [map concat]. now rewrite app_assoc.
    + intros t. rewrite H2, app_length. unfold upd. rewrite (Nat.eqb_sym (d_type d)). destruct (Nat.eqb_spec t (d_type d)) as [->|_]; [|reflexivity].
      now rewrite <- app_assoc.
Qed.
Lemma places_bytes t ds : forall rom k a n, nth_error (places t (length rom) ds) k = Some (a, n) ->
  exists d, nth_error (filter (fun d => d_type d =? t) ds) k = Some d /\ firstn n (skipn a (rom ++ all_bytes ds)) = d_bytes d.
Proof.
  induction ds as [|d ds IH]; intros rom k a n H; cbn [places] in H; [now destruct k|]. rewrite <- app_length in H.
  unfold all_bytes. cbn [map concat]. fold (all_bytes ds). rewrite app_assoc. cbn [filter].
  destruct (d_type d =? t); cbn [app] in H; [|exact (IH _ _ _ _ H)].
  destruct k as [|k]; cbn [nth_error] in *; [|exact (IH _ _ _ _ H)]. injection H as <- <-. exists d. split; [reflexivity|].
  rewrite <- app_assoc, skipn_app, skipn_all, Nat.sub_diag. cbn [app skipn]. rewrite firstn_app, firstn_all, Nat.sub_diag. cbn [firstn]. apply app_nil_r.
Qed.
Lemma places_len t ds : forall a, length (places t a ds) = length (filter (fun d => d_type d =? t) ds).
Proof. induction ds as [|d ds IH]; intros a; cbn [places filter]; [reflexivity|]. rewrite app_length, IH. destruct (d_type d =? t); reflexivity. Qed.
Lemma rom_law ds :
  fst (compile_rom ds) = all_bytes ds /\
  forall t, match descriptors_from_rom (snd (compile_rom ds)) t with
            | None => forall d, In d ds -> d_type d <> t
            | Some l => length l = length (filter (fun d => d_type d =? t) ds) /\
                forall k a n, nth_error l k = Some (a, n) ->
                  exists d, nth_error (filter (fun d => d_type d =? t) ds) k = Some d /\ firstn n (skipn a (fst (compile_rom ds))) = d_bytes d
            end.
Proof.
  unfold compile_rom. destruct (rom_run ds [] (fun _ => [])) as [H1 H2]. split; [exact H1|]. intros t. unfold descriptors_from_rom. rewrite H1.
  pose proof (H2 t) as E. rewrite app_nil_l in E. rewrite E. destruct (places t (length (@nil nat)) ds) as [|x l] eqn:Ep.
  - intros d Hd Et. pose proof (places_len t ds (length (@nil nat))) as Hl. rewrite Ep in Hl. cbn in Hl.
    assert (Hin : In d (filter (fun d => d_type d =? t) ds)) by (apply filter_In; split; [exact Hd|now apply Nat.eqb_eq]).
    destruct (filter _ ds); [destruct Hin|discriminate].
  - rewrite <- Ep. split; [apply places_len|]. intros k a n Hk. exact (places_bytes t ds [] k a n Hk).
Qed.

(** ** endpoints *)
Notation by_sync := (fun _ sync : nat => sync).
Lemma set_nth_nth l a x b : a < length l -> nth_error (set_nth l a x) b = if b =? a then Some x else nth_error l b.
Proof.
  intros H. unfold set_nth. destruct (Nat.eqb_spec b a) as [->|Hn].
  - rewrite nth_error_app2; rewrite firstn_length; [|lia]. now replace (a - Nat.min a (length l)) with 0 by lia.
  - destruct (Nat.lt_ge_cases b a) as [Hl|Hl].
    + rewrite nth_error_app1 by (rewrite firstn_length; lia). rewrite <- (firstn_skipn a l) at 2. rewrite nth_error_app1; [reflexivity|rewrite firstn_length; lia].
    + rewrite nth_error_app2 by (rewrite firstn_length; lia). rewrite firstn_length. replace (b - Nat.min a (length l)) with (S (b - a - 1)) by lia. cbn [nth_error].
      rewrite <- (firstn_skipn (a + 1) l) at 2. rewrite nth_error_app2 by (rewrite firstn_length; lia). f_equal. rewrite firstn_length. lia.
Qed.
Lemma entry_ext l n a dir : entry (l ++ repeat (None, None) n) a dir = entry l a dir.
Proof.
  unfold entry. destruct (Nat.lt_ge_cases a (length l)) as [H|H]; [now rewrite nth_error_app1|].
  rewrite nth_error_app2 by lia. rewrite (proj2 (nth_error_None l a)) by lia.
  destruct (nth_error (repeat (None, None) n) (a - length l)) eqn:E; [|reflexivity]. apply nth_error_In, repeat_spec in E. subst p. now destruct dir.
Qed.
Lemma of_ep_app f a dir x y : of_ep f a dir (x ++ y) = of_ep f a dir x ++ of_ep f a dir y.
Proof. unfold of_ep. apply flat_map_app. Qed.

Definition MInv (ds : list ud) (l : eps) : Prop :=
  forall dir, entry l 0 dir = want0 dir ds /\ forall a, 0 < a -> entry l a dir = want_by by_sync a dir ds.

Lemma upd_want a dir ds ty sync mps m0 m1 :
  want_by by_sync a dir ds = m0 ->
  add_type (match m0 with Some m => m | None => mk_em a dir false false false false 0 0 end) sync = Some m1 ->
  forall d, d_kind d = KEp a dir ty sync mps -> Some (add_mps m1 mps) = want_by by_sync a dir (ds ++ [d]).
Proof.
  intros <- H d Hd. unfold want_by in *. rewrite of_ep_app.
  assert (E : of_ep by_sync a dir [d] = [(sync, mps)]). { unfold of_ep. cbn [flat_map]. rewrite Hd, Nat.eqb_refl, eqb_reflx. reflexivity. }
  rewrite E. destruct (of_ep by_sync a dir ds) as [|x l].
  - cbn [app]. destruct sync as [|[|[|[|sync]]]]; try discriminate; injection H as <-;
      (assert (Em0 : list_max (map snd [(0, mps)]) = mps) by (cbn; lia)); unfold add_mps, has_type; cbn [map snd] in *; rewrite Em0;
      cbn [em_index em_dir em_setup em_bulk em_int em_iso em_mps em_buf existsb fst Nat.eqb orb]; rewrite Nat.max_0_l, (Nat.mul_comm mps 2); reflexivity.
  - cbn [app]. rewrite app_comm_cons. set (L := x :: l) in *.
    assert (Eh : forall t, has_type t (L ++ [(sync, mps)]) = has_type t L || (sync =? t)).
    { intros t. unfold has_type. rewrite existsb_app. cbn. now rewrite orb_false_r. }
    assert (Em : list_max (map snd (L ++ [(sync, mps)])) = Nat.max (list_max (map snd L)) mps).
    { rewrite map_app, list_max_app. cbn. lia. }
    rewrite !Eh, Em. clearbody L.
    destruct sync as [|[|[|[|sync]]]]; try discriminate; cbn [add_type em_index em_dir em_setup em_bulk em_int em_iso em_mps em_buf] in H; injection H as <-;
      unfold add_mps; cbn [em_index em_dir em_setup em_bulk em_int em_iso em_mps em_buf Nat.eqb]; rewrite ?orb_true_r, ?orb_false_r, (Nat.mul_comm _ 2); reflexivity.
Qed.

Lemma want0_ep ds d dir : is_dev d = false -> want0 dir (ds ++ [d]) = want0 dir ds.
Proof. intros H. unfold want0. rewrite flat_map_app. unfold is_dev in H. cbn [flat_map]. destruct (d_kind d); [discriminate|now rewrite !app_nil_r..]. Qed.
Lemma want_other ds d a dir : of_ep by_sync a dir [d] = [] -> want_by by_sync a dir (ds ++ [d]) = want_by by_sync a dir ds.
Proof. intros H. unfold want_by. rewrite of_ep_app, H, app_nil_r. reflexivity. Qed.

Lemma meta_inv ds l d l' : MInv ds l -> (l = [] -> forall d, In d ds -> d_kind d = KOther) -> meta_step l d = Some l' -> MInv (ds ++ [d]) l'.
Proof.
  intros HI He H dir. unfold meta_step in H. destruct (d_kind d) as [ps|a dr ty sync mps|] eqn:Ek.
  - destruct l as [|]; [|discriminate]. injection H as <-. specialize (He eq_refl).
    assert (H0 : flat_map (fun d => match d_kind d with KDev ps => [ps] | _ => [] end) ds = []).
    { clear - He. induction ds as [|x ds IH]; [reflexivity|]. cbn [flat_map]. rewrite (He x (or_introl eq_refl)). apply IH. intros y Hy. apply He. now right. }
    split.
    + unfold want0. rewrite flat_map_app, H0. cbn [flat_map app]. rewrite Ek. cbn. unfold entry. cbn [nth_error]. rewrite (Nat.mul_comm ps 2). now destruct dir.
    + intros a Ha. rewrite want_other by (unfold of_ep; cbn; now rewrite Ek).
      destruct (HI dir) as [_ H]. rewrite <- (H a Ha). unfold entry. destruct a as [|[|a]]; [lia|reflexivity..].
  - destruct (Nat.eqb_spec a 0) as [_|Ha]; [discriminate|]. set (l1 := l ++ repeat (None, None) (a + 1 - length l)) in *.
    assert (Hla : a < length l1) by (unfold l1; rewrite app_length, repeat_length; lia).
    destruct (nth_error l1 a) as [p|] eqn:Ep; [|discriminate].
    destruct (add_type _ sync) as [m1|] eqn:Em; [|discriminate]. injection H as <-.
    assert (Epk : forall dr', pick dr' p = want_by by_sync a dr' ds).
    { intros dr'. destruct (HI dr') as [_ H]. rewrite <- (H a) by lia. rewrite <- (entry_ext l (a + 1 - length l)). fold l1. unfold entry. rewrite Ep. now destruct dr'. }
    assert (Eo : forall b, b <> a -> entry (set_nth l1 a (put dr p (add_mps m1 mps))) b dir = entry l b dir).
    { intros b Hb. unfold entry at 1. rewrite set_nth_nth by exact Hla. rewrite (proj2 (Nat.eqb_neq b a) Hb). rewrite <- (entry_ext l (a + 1 - length l)). reflexivity. }
    split.
    + rewrite Eo by lia. rewrite want0_ep by (unfold is_dev; now rewrite Ek). apply HI.
    + intros b Hb. destruct (Nat.eq_dec b a) as [->|Hn].
      * unfold entry. rewrite set_nth_nth by exact Hla. rewrite Nat.eqb_refl. change (if dir then snd (put dr p (add_mps m1 mps)) else fst (put dr p (add_mps m1 mps))) with (pick dir (put dr p (add_mps m1 mps))).
        destruct (Bool.eqb dr dir) eqn:Ed.
        -- apply eqb_prop in Ed. subst dr. rewrite <- (upd_want a dir ds ty sync mps _ m1 eq_refl) with (d := d); [now destruct dir|now rewrite <- Epk|exact Ek].
        -- rewrite want_other by (unfold of_ep; cbn [flat_map]; rewrite Ek, Nat.eqb_refl, Ed; reflexivity). rewrite <- Epk. destruct dr, dir; try discriminate; reflexivity.
      * rewrite Eo by exact Hn. rewrite want_other; [now apply HI|]. unfold of_ep. cbn [flat_map]. rewrite Ek. apply Nat.eqb_neq in Hn. rewrite Nat.eqb_sym in Hn. now rewrite Hn.
  - injection H as <-. split; [rewrite want0_ep by (unfold is_dev; now rewrite Ek); apply HI|]. intros a Ha. rewrite want_other; [now apply HI|].
    unfold of_ep. cbn [flat_map]. now rewrite Ek.
Qed.

Lemma meta_nil l d l' : meta_step l d = Some l' -> l' = [] -> l = [] /\ d_kind d = KOther.
Proof.
  unfold meta_step. intros H E. destruct (d_kind d).
  - destruct l; [|discriminate]. injection H as <-. discriminate.
  - destruct (addr =? 0); [discriminate|]. destruct (nth_error _ addr); [|discriminate]. destruct (add_type _ sync); [|discriminate].
    injection H as <-. unfold set_nth in E. destruct (firstn addr _); discriminate.
  - injection H as <-. auto.
Qed.
Lemma run_inv ds2 : forall ds1 l l', MInv ds1 l -> (l = [] -> forall d, In d ds1 -> d_kind d = KOther) -> meta_run l ds2 = Some l' -> MInv (ds1 ++ ds2) l'.
Proof.
  induction ds2 as [|d ds2 IH]; intros ds1 l l' HI He H; cbn [meta_run] in H.
  - injection H as <-. now rewrite app_nil_r.
  - destruct (meta_step l d) as [l1|] eqn:E; [|discriminate]. change (d :: ds2) with ([d] ++ ds2). rewrite app_assoc. apply (IH _ l1); [now apply (meta_inv ds1 l)| |exact H].
    intros En x Hx. destruct (meta_nil _ _ _ E En) as [H1 H2]. apply in_app_or in Hx. destruct Hx as [Hx|[<-|[]]]; auto.
Qed.
Lemma meta_sync ds l : get_endpoint_meta ds = Some l -> MInv ds l.
Proof.
  intros H. apply (run_inv ds [] [] l); [|intros _ d []|exact H]. intros dir. split; [reflexivity|]. intros a Ha. unfold entry. now destruct a.
Qed.

Lemma of_ep_same ds a dir : same_types ds -> of_ep by_sync a dir ds = of_ep (fun ty _ => ty) a dir ds.
Proof.
  intros H. unfold of_ep. induction ds as [|d ds IH]; [reflexivity|]. cbn [flat_map]. rewrite IH by (intros x a' dr' ty' sy' mp' Hx; apply (H x a' dr' ty' sy' mp'); now right).
  destruct (d_kind d) as [| a' dr' ty sync mps|] eqn:Ek; try reflexivity. rewrite (H d a' dr' ty sync mps (or_introl eq_refl) Ek). reflexivity.
Qed.
Lemma meta_same ds l : same_types ds -> get_endpoint_meta ds = Some l -> meta_law ds l.
Proof.
  intros HS H dir. destruct (meta_sync ds l H dir) as [H1 H2]. split; [exact H1|]. intros a Ha. rewrite (H2 a Ha). unfold want, want_by. now rewrite of_ep_same.
Qed.
Lemma of_ep_snd f g a dir ds : map snd (of_ep f a dir ds) = map snd (of_ep g a dir ds).
Proof.
  unfold of_ep. induction ds as [|d ds IH]; [reflexivity|]. cbn [flat_map]. rewrite !map_app, IH. f_equal. destruct (d_kind d); try reflexivity. destruct (_ && _); reflexivity.
Qed.
Lemma meta_shape ds l a dir : get_endpoint_meta ds = Some l -> 0 < a -> option_map shape (entry l a dir) = option_map shape (want a dir ds).
Proof.
  intros H Ha. destruct (meta_sync ds l H dir) as [_ H2]. rewrite (H2 a Ha). unfold want, want_by.
  pose proof (of_ep_snd by_sync (fun ty _ => ty) a dir ds) as E.
  destruct (of_ep by_sync a dir ds) as [|x l1], (of_ep (fun ty _ => ty) a dir ds) as [|y l2]; try discriminate; [reflexivity|]. unfold shape. cbn [option_map em_index em_dir em_mps em_buf].
  now rewrite E.
Qed.

(** ** a result exists *)
Lemma step_some l d : (is_dev d = true -> l = []) -> (forall a dir ty sync mps, d_kind d = KEp a dir ty sync mps -> 0 < a /\ ty < 4 /\ sync < 4) ->
  exists l', meta_step l d = Some l'.
Proof.
  intros H1 H2. unfold meta_step, is_dev in *. destruct (d_kind d) as [ps|a dr ty sync mps|].
  - rewrite (H1 eq_refl). eauto.
  - destruct (H2 _ _ _ _ _ eq_refl) as (Ha & _ & Hs). destruct (Nat.eqb_spec a 0); [lia|].
    destruct (nth_error (l ++ repeat (None, None) (a + 1 - length l)) a) eqn:E; [|apply nth_error_None in E; rewrite app_length, repeat_length in E; lia].
    destruct sync as [|[|[|[|sync]]]]; cbn [add_type]; eauto; lia.
  - eauto.
Qed.
Lemma run_app d0 : forall l d1, meta_run l (d0 ++ d1) = match meta_run l d0 with Some l' => meta_run l' d1 | None => None end.
Proof. induction d0 as [|d d0 IH]; intros l d1; [reflexivity|]. cbn [app meta_run]. destruct (meta_step l d); [apply IH|reflexivity]. Qed.
Lemma run_nodev ds : existsb is_dev ds = false -> (forall d a dir ty sync mps, In d ds -> d_kind d = KEp a dir ty sync mps -> 0 < a /\ ty < 4 /\ sync < 4) ->
  forall l, exists l', meta_run l ds = Some l'.
Proof.
  induction ds as [|d ds IH]; intros Hd Hk l; [cbn; eauto|]. cbn [existsb] in Hd. apply orb_false_elim in Hd. destruct Hd as [Hd Hds].
  destruct (step_some l d) as [l1 E]; [congruence|intros; apply (Hk d a dir ty sync mps (or_introl eq_refl)); assumption|]. cbn [meta_run]. rewrite E.
  apply IH; [exact Hds|]. intros x a dir ty sync mps Hx. apply (Hk x a dir ty sync mps). now right.
Qed.
Lemma run_head d0 : existsb is_ep d0 = false -> length (filter is_dev d0) <= 1 -> exists l, meta_run [] d0 = Some l.
Proof.
  induction d0 as [|d d0 IH]; intros He Hl; [cbn; eauto|]. cbn [existsb] in He. apply orb_false_elim in He. destruct He as [He Hes]. cbn [filter] in Hl.
  cbn [meta_run]. destruct (is_dev d) eqn:Ed.
  - destruct (step_some [] d) as [l1 E]; [reflexivity|intros a dir ty sync mps Hk; unfold is_ep in He; rewrite Hk in He; discriminate|]. rewrite E.
    apply run_nodev.
    + cbn [length] in Hl. clear - Hl. induction d0 as [|x d0 IH]; [reflexivity|]. cbn [filter existsb] in *. destruct (is_dev x); [cbn in Hl; lia|]. apply IH. exact Hl.
    + intros x a dir ty sync mps Hx Hk. exfalso. assert (is_ep x = true) by (unfold is_ep; now rewrite Hk). assert (existsb is_ep d0 = true) by (apply existsb_exists; eauto). congruence.
  - unfold meta_step, is_dev, is_ep in *. destruct (d_kind d); try discriminate. apply IH; assumption.
Qed.
Lemma meta_total ds : bundle_ok ds -> exists l, get_endpoint_meta ds = Some l.
Proof.
  intros [(d0 & d1 & -> & He & Hd & Hl) Hk]. unfold get_endpoint_meta. rewrite run_app. destruct (run_head d0 He Hl) as [l E]. rewrite E.
  apply run_nodev; [exact Hd|]. intros d a dir ty sync mps Hin. apply (Hk d a dir ty sync mps). apply in_or_app. now right.
Qed.

Lemma ub_ok : bundle_ok ub_ds.
Proof.
  split.
  - exists (firstn 2 ub_ds), (skipn 2 ub_ds). repeat split; try reflexivity; cbn; lia.
  - intros d a dir ty sync mps H E. cbn in H. repeat (destruct H as [<-|H]; [cbn in E; try discriminate; injection E; intros; subst; lia|]). destruct H.
Qed.
Lemma ub_same : same_types ub_ds.
Proof. intros d a dir ty sync mps H E. cbn in H. repeat (destruct H as [<-|H]; [cbn in E; try discriminate; injection E; intros; subst; lia|]). destruct H. Qed.
Lemma type_bad : exists ds l m, bundle_ok ds /\ get_endpoint_meta ds = Some l /\ of_ep (fun ty _ => ty) 1 true ds = [(2, 64)] /\
  entry l 1 true = Some m /\ em_bulk m = false /\ em_setup m = true /\ ~ meta_law ds l.
Proof.
  exists ub_bulk. do 2 eexists. split.
  { split.
    - exists (firstn 1 ub_bulk), (skipn 1 ub_bulk). repeat split; try reflexivity.
    - intros d a dir ty sync mps H E. cbn in H. repeat (destruct H as [<-|H]; [cbn in E; try discriminate; injection E; intros; subst; lia|]). destruct H. }
  split; [vm_compute; reflexivity|]. split; [reflexivity|]. split; [vm_compute; reflexivity|]. split; [reflexivity|]. split; [reflexivity|].
  intros H. destruct (H true) as [_ H1]. specialize (H1 1 ltac:(lia)). vm_compute in H1. discriminate.
Qed.
