(** Proofs about Axi4S_frameDeparser. *)
From Verif Require Import Base BaseFacts FpModel FpSpec FpProofs FdModel FdSpec.

Lemma nth_map_seq : forall (A : Type) (f : nat -> A) n k d, k < n -> nth k (map f (seq 0 n)) d = f k.
Proof. intros A f n k d H. rewrite (nth_indep _ d (f 0)) by (rewrite map_length, seq_length; exact H). rewrite map_nth, seq_nth by exact H. reflexivity. Qed.

Section S.
  Variables (W : nat) (fields : list fld).
  Hypothesis HP : proper W fields.
  Let HW : 1 <= W := proj1 HP.
  Let Hne : fields <> [] := proj1 (proj2 HP).
  Let Hpos : forall f, In f fields -> 1 <= f_w f := proj2 (proj2 HP).
  Notation N := (nwords W fields).
  Notation mw := (max_word W fields).
  Notation lw := (last_word W fields).
  Notation stp := (d_step W fields).

  Lemma EN : N = mw + 1.
  Proof. apply (nwords_eq W fields HW Hne Hpos). Qed.
  Lemma fld_lw : forall j, is_field fields j -> lw j = ends_in W fields j.
  Proof. intros j Hj. apply (last_word_eq W fields HW). apply Hj. Qed.
  Lemma fld_lw_N : forall j, is_field fields j -> lw j < N.
  Proof. intros j Hj. rewrite EN. pose proof (last_le W fields HW j (proj1 Hj)). lia. Qed.
  Lemma fld_named : forall j, is_field fields j <-> named fields j = true.
  Proof. intros j. symmetry. apply (named_iff W fields HW). Qed.
  Lemma in_ports_iff : forall w j, In j (in_ports W fields w) <-> is_field fields j /\ touches W fields j w.
  Proof.
    intros w j. unfold in_ports. rewrite filter_In, in_seq, !Bool.andb_true_iff, !Nat.leb_le, <- fld_named. unfold touches. split.
    - intros [_ [[H1 H2] H3]]. split; [exact H1|]. rewrite <- fld_lw by exact H1. split; [exact H2|exact H3].
    - intros [H1 [H2 H3]]. rewrite fld_lw by exact H1. pose proof (proj1 H1). repeat split; try assumption; try lia; apply H1.
  Qed.
  Lemma last_ports_iff : forall w j, In j (last_ports W fields w) <-> is_field fields j /\ lw j = w.
  Proof. intros w j. unfold last_ports. rewrite (nodes_iff W fields HW), fld_named. reflexivity. Qed.
  Lemma begins_ends : forall j, is_field fields j -> begins_in W fields j <= ends_in W fields j.
  Proof. intros j Hj. unfold begins_in, ends_in. apply Nat.div_le_mono; [lia|]. pose proof (width_pos fields Hpos j (proj1 Hj)). lia. Qed.

  (** * the field of a bit *)
  Lemma start_S : forall j, j < length fields -> start fields (S j) = stop fields j.
  Proof.
    intros j Hj. unfold stop, start. revert j Hj. clear. induction fields as [|f l IH]; intros j Hj; cbn in Hj; [lia|].
    destruct j as [|j]; cbn [firstn map nth_error]; unfold list_sum in *; cbn [fold_right]; [lia|]. specialize (IH j ltac:(lia)). cbn [firstn] in IH. lia.
  Qed.
  Lemma start_mono : forall a b, a <= b -> b <= length fields -> start fields a <= start fields b.
  Proof.
    intros a b H. induction H as [|b H IH]; intros Hb; [lia|]. rewrite start_S by lia. specialize (IH ltac:(lia)). unfold stop. lia.
  Qed.
  Lemma field_at_iff : forall p j, j < length fields -> start fields j <= p < stop fields j -> field_at fields p = Some j.
  Proof.
    intros p j Hj Hp. unfold field_at. destruct (find _ _) as [x|] eqn:E.
    - apply find_some in E. destruct E as [E1 E2]. apply in_seq in E1. apply andb_prop in E2. destruct E2 as [E2 E3]. apply Nat.leb_le in E2. apply Nat.ltb_lt in E3. f_equal.
      destruct (Nat.lt_trichotomy x j) as [L|[L|L]]; [|exact L|].
      + pose proof (start_mono (S x) j ltac:(lia) ltac:(lia)) as M. rewrite start_S in M by lia. lia.
      + pose proof (start_mono (S j) x ltac:(lia) ltac:(lia)) as M. rewrite start_S in M by lia. lia.
    - exfalso. pose proof (find_none _ _ E j) as Q. cbn beta in Q. rewrite (proj2 (Nat.leb_le _ _) (proj1 Hp)), (proj2 (Nat.ltb_lt _ _) (proj2 Hp)) in Q. discriminate Q. apply in_seq. lia.
  Qed.
  Lemma strb_iff : forall w b, strb_of W fields w b = true <-> covered fields (w * W + b).
  Proof.
    intros w b. unfold strb_of, covered. split.
    - destruct (field_at _ _) as [j|] eqn:E; [|discriminate]. intros Hn. exists j. apply fld_named in Hn. split; [exact Hn|]. unfold field_at in E. apply find_some in E. destruct E as [_ E].
      apply andb_prop in E. destruct E as [E2 E3]. apply Nat.leb_le in E2. apply Nat.ltb_lt in E3. rewrite (stop_eq W fields HW j (proj1 Hn)) in E3. split; [exact E2|exact E3].
    - intros (j & Hj & Hp). rewrite (field_at_iff _ j (proj1 Hj)); [apply fld_named; exact Hj|]. rewrite (stop_eq W fields HW j (proj1 Hj)). exact Hp.
  Qed.

  (** * counter and marks: for every environment *)
  Definition ack_of (s : d_st) (i : d_in) : bool := q_v (snd (stp s i)) && d_r i.
  Lemma counter_step : forall s i K, s = mw - K mod N -> fst (stp s i) = mw - (if ack_of s i then S K else K) mod N.
  Proof.
    intros s i K Hs. pose proof EN as E. pose proof (Nat.mod_upper_bound K N ltac:(lia)) as B. pose proof (Nat.div_mod K N ltac:(lia)) as D.
    unfold ack_of. cbn [d_step fst snd q_v]. rewrite (Bool.andb_comm (forallb _ _)). replace (mw - s) with (K mod N) by lia.
    destruct (Nat.eqb_spec mw 0) as [Z|Z].
    { rewrite Z in *. replace N with 1 by lia. rewrite Nat.mod_1_r. reflexivity. }
    destruct (d_r i && forallb (d_v i) (in_ports W fields (K mod N))); [|exact Hs].
    destruct (Nat.eqb_spec (K mod N) mw) as [Q|Q].
    - replace (S K mod N) with 0 by (apply (Nat.mod_unique (S K) N (K / N + 1)); lia). lia.
    - replace (S K mod N) with (S (K mod N)) by (apply (Nat.mod_unique (S K) N (K / N)); lia).
      pose proof (log2ceil_ge (mw + 1)) as HL. rewrite wdec_pos; lia.
  Qed.
  Lemma counter_run : forall is s K, s = mw - K mod N -> final stp s is = mw - (K + length (sent (trace stp s is))) mod N.
  Proof.
    induction is as [|i is IH]; intros s K Hs; [cbn; rewrite Nat.add_0_r; exact Hs|]. rewrite trace_cons, final_cons. unfold sent. cbn [flat_map fst snd]. pose proof (counter_step s i K Hs) as Q. fold (ack_of s i).
    rewrite app_length. rewrite (IH _ _ Q). unfold sent. destruct (ack_of s i); cbn [length]; f_equal; f_equal; lia.
  Qed.
  Lemma init_counter : d_init W fields = mw - 0 mod N.
  Proof. rewrite Nat.mod_0_l by (pose proof EN; lia). unfold d_init. lia. Qed.
  Lemma t_valid : forall is i, let t := trace stp (d_init W fields) is in let o := snd (stp (final stp (d_init W fields) is) i) in
    (q_v o = true <-> forall j, is_field fields j -> touches W fields j (length (sent t) mod N) -> d_v i j = true).
  Proof.
    intros is i t o. unfold o. cbn [d_step snd q_v]. rewrite (counter_run is _ 0 init_counter). fold t. rewrite Nat.add_0_l. pose proof EN as E. pose proof (Nat.mod_upper_bound (length (sent t)) N ltac:(lia)) as B.
    replace (mw - (mw - length (sent t) mod N)) with (length (sent t) mod N) by lia. rewrite forallb_forall. split; intros H j.
    - intros H1 H2. apply H. apply in_ports_iff. auto.
    - intros Hj. apply in_ports_iff in Hj. apply H; tauto.
  Qed.
  Lemma t_last : forall is, let t := trace stp (d_init W fields) is in sent_last t = map (fun k => k mod N =? N - 1) (seq 0 (length (sent t))).
  Proof.
    intros is. assert (G : forall is s K, s = mw - K mod N -> sent_last (trace stp s is) = map (fun k => k mod N =? N - 1) (seq K (length (sent (trace stp s is))))).
    { clear is. induction is as [|i is IH]; intros s K Hs; [reflexivity|]. rewrite trace_cons. pose proof (counter_step s i K Hs) as Q. specialize (IH _ _ Q).
      unfold sent_last, sent in *. cbn [flat_map fst snd]. fold (ack_of s i). rewrite app_length. destruct (ack_of s i); [|exact IH]. cbn [app length Nat.add seq map]. rewrite <- IH. f_equal.
      cbn [d_step snd q_l]. pose proof EN as E. pose proof (Nat.mod_upper_bound K N ltac:(lia)) as B. destruct (Nat.eqb_spec s 0); destruct (Nat.eqb_spec (K mod N) (N - 1)); lia. }
    apply (G is _ 0 init_counter).
  Qed.
  Lemma t_strb : forall is, let t := trace stp (d_init W fields) is in forall k b, k < length (sent t) -> b < W ->
    (nth b (nth k (sent_strb t) []) false = true <-> covered fields (k mod N * W + b)).
  Proof.
    intros is. assert (G : forall is s K, s = mw - K mod N -> sent_strb (trace stp s is) = map (fun k => map (strb_of W fields (k mod N)) (seq 0 W)) (seq K (length (sent (trace stp s is))))).
    { clear is. induction is as [|i is IH]; intros s K Hs; [reflexivity|]. rewrite trace_cons. pose proof (counter_step s i K Hs) as Q. specialize (IH _ _ Q).
      unfold sent_strb, sent in *. cbn [flat_map fst snd]. fold (ack_of s i). rewrite app_length. destruct (ack_of s i); [|exact IH]. cbn [app length Nat.add seq map]. rewrite <- IH. f_equal.
      cbn [d_step snd q_s]. pose proof EN as E. pose proof (Nat.mod_upper_bound K N ltac:(lia)) as B. replace (mw - s) with (K mod N) by lia. reflexivity. }
    intros t k b Hk Hb. unfold t. rewrite (G is _ 0 init_counter). fold t. rewrite <- strb_iff.
    rewrite nth_map_seq by exact Hk. rewrite nth_map_seq by exact Hb. reflexivity.
  Qed.

  (** * values *)
  Variable vals : nat -> nat -> list bool.
  Record Inv (s : d_st) (L : list (list bool)) (g : nat -> nat) : Prop := {
    i_s : s = mw - length L mod N;
    i_g : forall j, is_field fields j -> forall n, n < g j <-> n * N + lw j < length L;
    i_len : forall w, In w L -> length w = W;
    i_d : forall k b j, k < length L -> b < W -> is_field fields j -> offset fields j <= k mod N * W + b < offset fields j + width fields j ->
          nth b (nth k L []) false = nth (k mod N * W + b - offset fields j) (vals j (k / N)) false
  }.
  (** the condition: ends are taken only with the whole word *)
  Definition calm (i : d_in) : Prop := forall w, last_ports W fields w <> [] -> forallb (d_v i) (last_ports W fields w) = true -> forallb (d_v i) (in_ports W fields w) = true.
  Lemma tidy_calm : tidy W fields -> forall i, calm i.
  Proof.
    intros HT i w H1 H2. rewrite forallb_forall in *. intros j Hj. apply H2. apply in_ports_iff in Hj. destruct Hj as [Hj Ht]. apply last_ports_iff. split; [exact Hj|].
    destruct (last_ports W fields w) as [|a l] eqn:E; [congruence|]. assert (Ha : In a (last_ports W fields w)) by (rewrite E; left; reflexivity). apply last_ports_iff in Ha. destruct Ha as [Ha1 Ha2].
    rewrite fld_lw by exact Hj. apply (HT a j w Ha1 Hj); [rewrite <- fld_lw by exact Ha1; exact Ha2|exact Ht].
  Qed.
  Lemma together_calm : forall i, together fields i -> calm i.
  Proof.
    intros i HT w H1 H2. rewrite forallb_forall in *. intros j Hj. apply in_ports_iff in Hj. destruct Hj as [Hj _].
    destruct (last_ports W fields w) as [|a l] eqn:E; [congruence|]. assert (Ha : In a (last_ports W fields w)) by (rewrite E; left; reflexivity). pose proof (H2 a (or_introl eq_refl)) as Q. apply last_ports_iff in Ha. rewrite (HT j a Hj (proj1 Ha)). exact Q.
  Qed.
  Lemma cnt_here : forall (L : list (list bool)) (g : nat -> nat) j, (forall n, n < g j <-> n * N + lw j < length L) -> is_field fields j -> length L mod N <= lw j -> g j = length L / N.
  Proof.
    intros L g j Hg Hj Hw. pose proof EN as E. pose proof (Nat.div_mod (length L) N ltac:(lia)) as D. pose proof (fld_lw_N j Hj) as B.
    pose proof (Hg (length L / N)) as P1. pose proof (Hg (length L / N - 1)) as P2. destruct (length L / N) as [|q]; [lia|]. replace (S q - 1) with q in P2 by lia. nia.
  Qed.
  Lemma rd_eq : forall s L g i j, Inv s L g -> is_field fields j -> d_v i j && q_rd (snd (stp s i)) j = d_r i && (lw j =? length L mod N) && forallb (d_v i) (last_ports W fields (length L mod N)).
  Proof.
    intros s L g i j HI Hj. pose proof EN as E. pose proof (Nat.mod_upper_bound (length L) N ltac:(lia)) as B. cbn [d_step snd q_rd]. rewrite (i_s _ _ _ HI). replace (mw - (mw - length L mod N)) with (length L mod N) by lia.
    set (w := length L mod N). apply Bool.eq_true_iff_eq. rewrite !Bool.andb_true_iff, existsb_exists, !forallb_forall, Nat.eqb_eq. split.
    - intros (V & (R & x & X1 & X2) & F). apply Nat.eqb_eq in X2. subst x. apply last_ports_iff in X1. split; [tauto|]. intros k Hk. specialize (F k Hk). apply Bool.orb_true_iff in F. destruct F as [F|F]; [|exact F]. apply Nat.eqb_eq in F. subst k. exact V.
    - intros ((R & X) & F). split; [apply F; apply last_ports_iff; auto|]. split; [split; [exact R|exists j; split; [apply last_ports_iff; auto|apply Nat.eqb_refl]]|]. intros k Hk. rewrite (F k Hk). apply Bool.orb_true_r.
  Qed.
  Lemma inv_step : forall s L g i, Inv s L g -> calm i -> (forall j, is_field fields j -> d_v i j = true -> d_d i j = vals j (g j)) ->
    Inv (fst (stp s i)) (L ++ if q_v (snd (stp s i)) && d_r i then [q_d (snd (stp s i))] else []) (fun j => if d_v i j && q_rd (snd (stp s i)) j then S (g j) else g j).
  Proof.
    intros s L g i HI HC HD. pose proof EN as E. pose proof (Nat.mod_upper_bound (length L) N ltac:(lia)) as B. pose proof (Nat.div_mod (length L) N ltac:(lia)) as D.
    pose proof (counter_step s i (length L) (i_s _ _ _ HI)) as HS. unfold ack_of in HS.
    assert (HV : q_v (snd (stp s i)) = forallb (d_v i) (in_ports W fields (length L mod N))). { cbn [d_step snd q_v]. rewrite (i_s _ _ _ HI). do 2 f_equal. lia. }
    destruct (q_v (snd (stp s i)) && d_r i) eqn:EA.
    - apply andb_prop in EA. destruct EA as [EV ER]. rewrite EV in HV. symmetry in HV. rewrite forallb_forall in HV.
      assert (HL : forallb (d_v i) (last_ports W fields (length L mod N)) = true).
      { apply forallb_forall. intros j Hj. apply HV. apply last_ports_iff in Hj. destruct Hj as [Hj1 Hj2]. apply in_ports_iff. split; [exact Hj1|]. split; [|rewrite <- fld_lw by exact Hj1; lia]. rewrite <- Hj2, fld_lw by exact Hj1. apply begins_ends. exact Hj1. }
      constructor.
      + rewrite app_length. cbn [length]. rewrite Nat.add_1_r. exact HS.
      + intros j Hj n. rewrite (rd_eq _ _ _ _ _ HI Hj), ER, HL, Bool.andb_true_r, app_length. cbn [andb length]. destruct (Nat.eqb_spec (lw j) (length L mod N)) as [Q|Q].
        * rewrite (cnt_here L g j (i_g _ _ _ HI j Hj) Hj) by lia. rewrite Q. nia.
        * rewrite (i_g _ _ _ HI j Hj n). split; [lia|]. intros H. assert (n * N + lw j <> length L); [|lia]. intros Z. apply Q. apply (Nat.mod_unique _ _ n); [apply fld_lw_N; exact Hj|lia].
      + intros w Hw. apply in_app_iff in Hw. destruct Hw as [Hw|[<-|[]]]; [apply (i_len _ _ _ HI); exact Hw|]. cbn [d_step snd q_d]. rewrite map_length. apply seq_length.
      + intros k b j Hk Hb Hj Hp. rewrite app_length in Hk. cbn [length] in Hk. destruct (Nat.eq_dec k (length L)) as [Q|Q].
        2:{ rewrite app_nth1 by lia. apply (i_d _ _ _ HI); [lia|exact Hb|exact Hj|exact Hp]. }
        subst k. rewrite app_nth2, Nat.sub_diag by lia. cbn [nth d_step snd q_d]. set (w := mw - s). assert (Ew : w = length L mod N) by (unfold w; rewrite (i_s _ _ _ HI); lia).
        rewrite nth_map_seq by exact Hb. rewrite Ew. unfold bit_of.
        rewrite (field_at_iff _ j (proj1 Hj)) by (rewrite (stop_eq W fields HW j (proj1 Hj)); exact Hp). rewrite (proj1 (fld_named j) Hj).
        assert (HT : touches W fields j (length L mod N)).
        { split.
          - unfold begins_in. apply Nat.lt_succ_r. apply Nat.div_lt_upper_bound; lia.
          - unfold ends_in. apply Nat.div_le_lower_bound; lia. }
        assert (V : d_v i j = true) by (apply HV, in_ports_iff; auto). rewrite (HD j Hj V), (cnt_here L g j (i_g _ _ _ HI j Hj) Hj); [reflexivity|]. rewrite fld_lw by exact Hj. apply HT.
    - assert (NR : forall j, is_field fields j -> d_v i j && q_rd (snd (stp s i)) j = false).
      { intros j Hj. rewrite (rd_eq _ _ _ _ _ HI Hj). destruct (d_r i) eqn:ER; [|reflexivity]. rewrite Bool.andb_true_r in EA. rewrite EA in HV. cbn [andb].
        destruct (Nat.eqb_spec (lw j) (length L mod N)) as [Q|Q]; [|reflexivity]. cbn [andb]. destruct (forallb (d_v i) (last_ports W fields (length L mod N))) eqn:EL; [|reflexivity].
        rewrite (HC (length L mod N)) in HV; [discriminate| |exact EL]. intros Z. assert (In j (last_ports W fields (length L mod N))) by (apply last_ports_iff; auto). rewrite Z in H. destruct H. }
      rewrite app_nil_r. constructor; [exact HS| |apply (i_len _ _ _ HI)|apply (i_d _ _ _ HI)]. intros j Hj. rewrite (NR j Hj). apply (i_g _ _ _ HI). exact Hj.
  Qed.
  Lemma inv_ext : forall s L g g', (forall j, g j = g' j) -> Inv s L g -> Inv s L g'.
  Proof. intros s L g g' H [A B C D]. constructor; auto. intros j Hj n. rewrite <- H. auto. Qed.
  Lemma inv_run : forall is s L g, Inv s L g -> Forall calm is -> supplies fields vals g (trace stp s is) ->
    Inv (final stp s is) (L ++ sent (trace stp s is)) (fun j => g j + given j (trace stp s is)).
  Proof.
    induction is as [|i is IH]; intros s L g HI HC HS.
    - cbn. rewrite app_nil_r. apply (inv_ext _ _ g); [|exact HI]. intros j. cbn. lia.
    - rewrite trace_cons in *. rewrite final_cons. cbn [supplies fst snd] in HS. destruct HS as [H1 H2]. inversion HC as [|? ? HC1 HC2]; subst.
      pose proof (inv_step s L g i HI HC1 H1) as HI'. specialize (IH _ _ _ HI' HC2 H2). unfold sent in *. cbn [flat_map fst snd]. rewrite app_assoc.
      apply (inv_ext _ _ _ _) with (2 := IH). intros j. unfold given. cbn [filter fst snd]. destruct (d_v i j && q_rd (snd (stp s i)) j); cbn [length]; lia.
  Qed.
  Lemma inv_all : forall is, tidy W fields \/ Forall (together fields) is -> supplies fields vals (fun _ => 0) (trace stp (d_init W fields) is) ->
    Inv (final stp (d_init W fields) is) (sent (trace stp (d_init W fields) is)) (fun j => given j (trace stp (d_init W fields) is)).
  Proof.
    intros is HG HS. apply (inv_run is (d_init W fields) [] (fun _ => 0)); [| |exact HS].
    - constructor; cbn [length].
      + apply init_counter.
      + intros; split; lia.
      + intros w [].
      + intros; lia.
    - destruct HG as [HG|HG]; [apply Forall_forall; intros i _; apply tidy_calm; exact HG|]. eapply Forall_impl; [|exact HG]. exact together_calm.
  Qed.
  Lemma t_taken : forall is, tidy W fields \/ Forall (together fields) is -> let t := trace stp (d_init W fields) is in supplies fields vals (fun _ => 0) t ->
    forall j, is_field fields j -> forall n, n < given j t <-> n * N + ends_in W fields j < length (sent t).
  Proof. intros is HG t HS j Hj n. rewrite <- fld_lw by exact Hj. apply (i_g _ _ _ (inv_all is HG HS) j Hj). Qed.

  Lemma nth_concat : forall L p, (forall w : list bool, In w L -> length w = W) -> nth p (concat L) false = nth (p mod W) (nth (p / W) L []) false.
  Proof.
    induction L as [|w L IH]; intros p HL; [destruct (p / W), (p mod W), p; reflexivity|]. cbn [concat]. pose proof (HL w (or_introl eq_refl)) as Hw. destruct (Nat.lt_ge_cases p W) as [Q|Q].
    - rewrite app_nth1 by lia. rewrite Nat.mod_small, Nat.div_small by exact Q. reflexivity.
    - rewrite app_nth2 by lia. rewrite Hw, IH by (intros x Hx; apply HL; right; exact Hx). replace (p / W) with (S ((p - W) / W)); [|].
      + cbn [nth]. f_equal. replace p with (p - W + 1 * W) at 2 by lia. rewrite Nat.mod_add by lia. reflexivity.
      + replace p with (p - W + 1 * W) at 2 by lia. rewrite Nat.div_add by lia. lia.
  Qed.
  Lemma nth_bits : forall l off w p, p < w -> nth p (bits off w l) false = nth (off + p) l false.
  Proof.
    intros l off w p Hp. unfold bits. revert l. induction off as [|off IH]; intros l.
    - cbn [skipn Nat.add]. revert p w Hp. induction l as [|x l IHl]; intros p w Hp; [rewrite firstn_nil; reflexivity|]. destruct w; [lia|]. destruct p; [reflexivity|]. cbn [firstn nth]. apply IHl. lia.
    - destruct l; [rewrite skipn_nil, firstn_nil; destruct p; reflexivity|]. cbn [skipn Nat.add nth]. apply IH.
  Qed.
  Lemma list_ext : forall (l m : list bool), length l = length m -> (forall p, p < length l -> nth p l false = nth p m false) -> l = m.
  Proof. intros l m H1 H2. apply (nth_ext _ _ false false H1 H2). Qed.
  Lemma nth_skip : forall (L : list (list bool)) a k, nth k (skipn a L) [] = nth (a + k) L [].
  Proof. intros L a. revert L. induction a as [|a IH]; intros L k; [reflexivity|]. destruct L; [rewrite skipn_nil; destruct k; reflexivity|]. cbn. apply IH. Qed.
  Lemma nth_first : forall (L : list (list bool)) a k, k < a -> nth k (firstn a L) [] = nth k L [].
  Proof. intros L a. revert L. induction a as [|a IH]; intros L k Hk; [lia|]. destruct L; [rewrite firstn_nil; reflexivity|]. destruct k; [reflexivity|]. cbn. apply IH. lia. Qed.
  Hypothesis Hvals : forall j n, is_field fields j -> length (vals j n) = width fields j.
  (** [m] words from the start of frame [n] which are all sent and contain the field *)
  Lemma words_value : forall s L g j n m, Inv s L g -> is_field fields j -> ends_in W fields j < m -> m <= N -> n * N + m <= length L ->
    bits (offset fields j) (width fields j) (concat (firstn m (skipn (n * N) L))) = vals j n.
  Proof.
    intros s L g j n m HI Hj H1 H2 H3. pose proof (width_pos fields Hpos j (proj1 Hj)) as Hw.
    assert (LW : forall w, In w (firstn m (skipn (n * N) L)) -> length w = W).
    { intros w Hin. apply (i_len _ _ _ HI). rewrite <- (firstn_skipn (n * N) L). apply in_app_iff. right. rewrite <- (firstn_skipn m). apply in_app_iff. left. exact Hin. }
    assert (LC : length (concat (firstn m (skipn (n * N) L))) = m * W).
    { assert (X : forall M : list (list bool), (forall w, In w M -> length w = W) -> length (concat M) = length M * W). { induction M as [|w M IH]; intros H; [reflexivity|]. cbn [concat length]. rewrite app_length, (H w (or_introl eq_refl)), IH; [lia|]. intros x Hx. apply H. right. exact Hx. }
      rewrite X by exact LW. rewrite firstn_length, skipn_length. f_equal. lia. }
    assert (HE : offset fields j + width fields j <= m * W).
    { unfold ends_in in H1. pose proof (Nat.div_mod (offset fields j + width fields j - 1) W ltac:(lia)) as D. pose proof (Nat.mod_upper_bound (offset fields j + width fields j - 1) W ltac:(lia)). nia. }
    apply list_ext; [unfold bits; rewrite firstn_length, skipn_length, LC, Hvals by exact Hj; lia|]. intros p Hp. unfold bits in Hp. rewrite firstn_length in Hp. rewrite nth_bits by lia.
    rewrite nth_concat by exact LW. set (q := offset fields j + p). pose proof (Nat.div_mod q W ltac:(lia)) as D. pose proof (Nat.mod_upper_bound q W ltac:(lia)) as B.
    assert (Hq : q / W < m) by (apply Nat.div_lt_upper_bound; lia). rewrite nth_first, nth_skip by exact Hq.
    assert (M1 : (n * N + q / W) mod N = q / W) by (symmetry; apply (Nat.mod_unique _ _ n); lia). assert (M2 : (n * N + q / W) / N = n) by (symmetry; apply (Nat.div_unique _ _ _ (q / W)); lia).
    rewrite (i_d _ _ _ HI (n * N + q / W) (q mod W) j); [|lia|exact B|exact Hj|rewrite M1; lia]. rewrite M1, M2. f_equal. lia.
  Qed.
  Lemma t_frames : forall is, tidy W fields \/ Forall (together fields) is -> let t := trace stp (d_init W fields) is in supplies fields vals (fun _ => 0) t ->
    forall n j, is_field fields j -> n * N + ends_in W fields j < length (sent t) ->
    bits (offset fields j) (width fields j) (concat (firstn (S (ends_in W fields j)) (skipn (n * N) (sent t)))) = vals j n.
  Proof.
    intros is HG t HS n j Hj Hn. pose proof (fld_lw_N j Hj) as B. rewrite fld_lw in B by exact Hj. apply (words_value _ _ _ j n _ (inv_all is HG HS) Hj); fold t; lia.
  Qed.
End S.

(** * deparser followed by parser *)
Lemma concat_words : forall (L : list (list bool)) a m, a + m <= length L -> map (fun k => nth k L []) (seq a m) = firstn m (skipn a L).
Proof.
  intros L a m. revert a. induction m as [|m IH]; intros a H; [reflexivity|]. cbn [seq map]. rewrite IH by lia. clear IH. revert L H. induction a as [|a IHa]; intros L H.
  - destruct L; [cbn in H; lia|]. reflexivity.
  - destruct L; [cbn in H; lia|]. cbn [skipn nth]. rewrite <- IHa by (cbn in H; lia). f_equal.
Qed.
Lemma t_round : forall W fields vals, proper W fields -> (forall j n, is_field fields j -> length (vals j n) = width fields j) ->
  forall di, tidy W fields \/ Forall (together fields) di -> let td := trace (d_step W fields) (d_init W fields) di in supplies fields vals (fun _ => 0) td ->
  forall pi r0 src lst, let tp := trace (p_step W fields false false) (p_init fields r0) pi in
  (forall k, length (src k) = W) -> (forall k, k < length (sent td) -> src k = nth k (sent td) []) -> feeds src lst 0 tp -> eaten tp < length (sent td) ->
  forall j, is_field fields j -> taken j tp = map (vals j) (seq 0 (length (taken j tp))).
Proof.
  intros W fields vals HP HV di HG td HS pi r0 src lst tp Hl Hsrc HF HE j Hj. destruct (FpProofs.t_frames W fields src lst HP Hl r0 pi HF j Hj) as (A & _ & C). fold tp in A, C. rewrite A at 1. apply map_ext_in. intros n Hn.
  apply in_seq in Hn. specialize (C n ltac:(lia)). rewrite <- (value_frame W fields src lst HP Hl j n Hj). unfold value. replace (n * nwords W fields + ends_in W fields j - ends_in W fields j) with (n * nwords W fields) by lia.
  rewrite <- (t_frames W fields HP vals HV di HG HS n j Hj) by (fold td; lia). fold td. do 2 f_equal. rewrite <- concat_words by lia.
  apply map_ext_in. intros k Hk. apply in_seq in Hk. apply Hsrc. lia.
Qed.
