From Verif Require Import Base BaseFacts TimerModel TimerSpec TimerProofs UartModel UartSpec.

Ltac glia := repeat match goal with
  | H : context [?a mod ?b] |- _ => let x := fresh "m" in set (x := a mod b) in *; clearbody x
  | H : context [?a / ?b] |- _ => let x := fresh "m" in set (x := a / b) in *; clearbody x
  | |- context [?a mod ?b] => let x := fresh "m" in set (x := a mod b) in *; clearbody x
  | |- context [?a / ?b] => let x := fresh "m" in set (x := a / b) in *; clearbody x
  end; lia.

Lemma trace_nth {St I O} (step : St -> I -> St * O) is : forall s n c,
  nth_error (trace step s is) n = Some c <->
  (nth_error is n = Some (fst c) /\ snd c = snd (step (final step s (firstn n is)) (fst c))).
Proof.
  induction is as [|i is IH]; intros s n c.
  - rewrite trace_nil. destruct n; cbn; split; [discriminate|intros []; discriminate|discriminate|intros []; discriminate].
  - rewrite trace_cons. destruct n; cbn [nth_error firstn].
    + rewrite final_nil. destruct c as [x o]. cbn [fst snd]. split.
      * intros [= <- <-]. auto.
      * intros [[= <-] ->]. reflexivity.
    + rewrite final_cons. apply IH.
Qed.
Lemma final_S {St I O} (step : St -> I -> St * O) s is n i : nth_error is n = Some i ->
  final step s (firstn (S n) is) = fst (step (final step s (firstn n is)) i).
Proof.
  revert s n. induction is as [|x is IH]; intros s [|n] E; cbn [nth_error] in E; try discriminate.
  - injection E as ->. cbn [firstn]. now rewrite final_cons, !final_nil.
  - cbn [firstn]. rewrite !final_cons. now apply IH.
Qed.

(** * timers *)
Definition TT (ps : list nat) (h : list (bool * bool)) : nat -> nat := final (timers_step ps) (timers_init ps) h.

Lemma TT_snoc ps h i : fst (timers_step ps (TT ps h) i) = TT ps (h ++ [i]).
Proof. unfold TT. now rewrite final_snoc. Qed.

Lemma timer1_run p h e : 1 <= p ->
  timer1 p (TT [p] h) e false = (TT [p] (h ++ [(e, false)]), e && ((enabled_since h + 1) mod p =? 0)).
Proof.
  intros Hp. unfold timer1. pose proof (TT_snoc [p] h (e, false)) as E1.
  pose proof (timers_correct [p] h e 0 p ltac:(repeat constructor; exact Hp) eq_refl) as E2. fold (TT [p] h) in E2.
  destruct (timers_step [p] (TT [p] h) (e, false)) as [c ticks]. cbn [fst snd] in *. rewrite E1. f_equal.
  now apply nth_error_nth with (d := false) in E2.
Qed.
Lemma timer1_rst p h : timer1 p (TT [p] h) false true = (TT [p] (h ++ [(false, true)]), false).
Proof.
  unfold timer1. pose proof (TT_snoc [p] h (false, true)) as E1.
  destruct (timers_step [p] (TT [p] h) (false, true)) as [c ticks] eqn:E. cbn [fst] in E1. rewrite E1. f_equal.
  unfold timers_step in E. injection E as _ <-. unfold enum_timers. cbn [length seq combine map nth snd fst].
  destruct (Nat.eqb_spec p 1) as [|Hp]; [reflexivity|].
  unfold sorted_timers, enum_timers. cbn [length seq combine filter snd]. rewrite (proj2 (Nat.eqb_neq p 1) Hp).
  cbn [negb sort_timers fold_right insert_timer length seq find nth fst map snd].
  cbn [Nat.eqb Nat.add]. cbn [tick]. destruct (resolve_sharing [p] 0) as [q|] eqn:Eq.
  - exfalso. unfold resolve_sharing in Eq. cbn [length seq resolve_steps] in Eq. unfold upd, choose_parent in Eq. cbn in Eq.
    destruct (pow2b p); discriminate.
  - now rewrite andb_false_r.
Qed.
Lemma enabled_rst h e : enabled_since (h ++ [(e, true)]) = 0.
Proof. rewrite enabled_snoc. reflexivity. Qed.
Lemma enabled_en h e : enabled_since (h ++ [(e, false)]) = if e then enabled_since h + 1 else enabled_since h.
Proof. rewrite enabled_snoc. reflexivity. Qed.

(** * the transmitter as an abstract machine: the byte which is sent and the number of cycles since its acceptance *)
Definition atx_step (R : nat) (st : option (list bool * nat)) (i : tx_in) : option (list bool * nat) * tx_out :=
  match st with
  | None => (if txi_vld i then Some (txi_data i, 0) else None, mk_txo true true)
  | Some (b, j) => (if j + 1 =? 10 * R then None else Some (b, j + 1),
                    mk_txo false (if j <? R then true else nth (j / R - 1) (frame b) true))
  end.

Section Tx.
  Variable R : nat.
  Hypothesis HR : 1 <= R.

  Definition tx_rep (s : tx_st) (st : option (list bool * nat)) : Prop :=
    exists h, tx_tmr s = TT [R; R * 10] h /\
    match st with
    | None => tx_en s = false /\ tx_txd s = true /\ enabled_since h mod (10 * R) = 0
    | Some (b, j) => tx_en s = true /\ length b = 8 /\ j < 10 * R /\ enabled_since h mod (10 * R) = j /\
                     tx_txd s = (if j <? R then true else nth (j / R - 1) (frame b) true) /\
                     tx_data s = skipn (j / R) (frame b) ++ repeat true (j / R)
    end.

  Lemma mod_mul_tick n j : n mod (10 * R) = j -> (n + 1) mod R = (j + 1) mod R /\ (n + 1) mod (R * 10) = (j + 1) mod (R * 10).
  Proof.
    intros <-. rewrite (Nat.mul_comm R 10). split.
    - rewrite (Nat.div_mod n (10 * R)) at 1 by lia. replace (10 * R * (n / (10 * R)) + n mod (10 * R) + 1)
        with (n mod (10 * R) + 1 + (10 * (n / (10 * R))) * R) by lia. now rewrite Nat.mod_add by lia.
    - now rewrite Nat.add_mod_idemp_l by lia.
  Qed.
  Lemma frame_len b : length b = 8 -> length (frame b) = 10.
  Proof. intros H. unfold frame. cbn [length]. rewrite app_length, H. reflexivity. Qed.
  Lemma div_tick j : (j + 1) mod R = 0 -> (j + 1) / R = j / R + 1.
  Proof.
    intros H. pose proof (Nat.div_mod (j + 1) R ltac:(lia)) as E. rewrite H in E.
    assert (E1 : (j + 1) / R - 1 = j / R); [|lia].
    { apply Nat.div_unique with (r := R - 1); [lia|]. assert (0 < (j + 1) / R) by nia. nia. }
  Qed.
  Lemma div_no_tick j : (j + 1) mod R <> 0 -> (j + 1) / R = j / R.
  Proof.
    intros H. apply Nat.div_unique with (r := (j + 1) mod R - 1); [pose proof (Nat.mod_upper_bound (j + 1) R); lia|].
    pose proof (Nat.div_mod (j + 1) R ltac:(lia)). lia.
  Qed.

  Lemma tx_refine s st i : tx_rep s st -> length (txi_data i) = 8 ->
    snd (tx_step R s i) = snd (atx_step R st i) /\ tx_rep (fst (tx_step R s i)) (fst (atx_step R st i)).
  Proof.
    intros (h & Ht & Hs) Hi. unfold tx_step. rewrite Ht.
    assert (Hp : Forall (fun p => 1 <= p) [R; R * 10]) by (repeat constructor; lia).
    pose proof (timers_correct [R; R * 10] h (tx_en s) 0 R Hp eq_refl) as T0.
    pose proof (timers_correct [R; R * 10] h (tx_en s) 1 (R * 10) Hp eq_refl) as T1.
    pose proof (TT_snoc [R; R * 10] h (tx_en s, false)) as T2. fold (TT [R; R * 10] h) in T0, T1.
    destruct (timers_step [R; R * 10] (TT [R; R * 10] h) (tx_en s, false)) as [c ticks]. cbn [fst snd] in *.
    apply nth_error_nth with (d := false) in T0, T1. rewrite T0, T1. subst c.
    destruct st as [[b j]|].
    - destruct Hs as (En & Hb & Hj & Hm & Htx & Hd). rewrite En in *. cbn [negb andb].
      rewrite andb_true_r. destruct (mod_mul_tick _ _ Hm) as [M1 M2]. rewrite M1, M2.
      cbn [atx_step fst snd]. split; [now rewrite Htx|].
      exists (h ++ [(true, false)]). split; [reflexivity|]. rewrite enabled_en.
      destruct (Nat.eqb_spec ((j + 1) mod R) 0) as [Et|Et]; cbn [andb].
      + assert (Ediv : (j + 1) / R = j / R + 1) by (now apply div_tick).
        assert (Hdr : j / R < 10) by (apply Nat.div_lt_upper_bound; glia).
        assert (Htx' : hd false (tx_data s) = nth (j / R) (frame b) true).
        { rewrite Hd. pose proof (frame_len b Hb) as Hf. destruct (skipn (j / R) (frame b)) as [|y l] eqn:Es.
          - apply (f_equal (@length bool)) in Es. rewrite skipn_length, Hf in Es. cbn [length] in Es. glia.
          - cbn [app hd]. rewrite <- (firstn_skipn (j / R) (frame b)), Es, app_nth2; rewrite firstn_length, Hf; [|glia].
            now replace (j / R - Nat.min (j / R) 10) with 0 by glia. }
        destruct (Nat.eqb_spec (j + 1) (10 * R)) as [Eend|Eend].
        * assert (El : (j + 1) mod (R * 10) = 0) by (rewrite Eend, (Nat.mul_comm R); apply Nat.mod_same; glia).
          rewrite El. cbn [Nat.eqb fst tx_en tx_txd tx_data]. split; [reflexivity|]. split.
          -- rewrite Htx'. assert (E9 : j / R = 9). { rewrite Eend, Nat.div_mul in Ediv by glia. glia. }
             rewrite E9. unfold frame. change (nth 9 (false :: b ++ [true]) true) with (nth 8 (b ++ [true]) true).
             rewrite app_nth2, Hb by glia. reflexivity.
          -- rewrite <- Hm in Eend. rewrite (Nat.div_mod (enabled_since h) (10 * R)) by glia.
             replace (10 * R * (enabled_since h / (10 * R)) + enabled_since h mod (10 * R) + 1)
               with ((enabled_since h mod (10 * R) + 1) + (enabled_since h / (10 * R)) * (10 * R)) by glia.
             rewrite Nat.mod_add, Eend by glia. apply Nat.mod_same. glia.
        * assert (El : (j + 1) mod (R * 10) <> 0) by (rewrite Nat.mod_small; glia).
          rewrite (proj2 (Nat.eqb_neq _ _) El). cbn [fst tx_en tx_txd tx_data].
          split; [first [exact En | reflexivity]|]. split; [exact Hb|]. split; [glia|]. split; [|split].
          -- rewrite Nat.add_mod, Hm by glia. rewrite (Nat.mod_small 1) by glia. apply Nat.mod_small. glia.
          -- rewrite Htx', Ediv. destruct (Nat.ltb_spec (j + 1) R).
             ++ rewrite Nat.mod_small in Et by glia. glia.
             ++ f_equal. glia.
          -- rewrite Ediv, Hd. pose proof (frame_len b Hb) as Hf.
             assert (Hsk : forall (l : list bool) k, tl (skipn k l) = skipn (k + 1) l).
             { clear. induction l as [|a l IH]; intros [|k]; [reflexivity|reflexivity|reflexivity|]. cbn [skipn Nat.add]. apply IH. }
             destruct (skipn (j / R) (frame b)) as [|y l] eqn:Es.
             { apply (f_equal (@length bool)) in Es. rewrite skipn_length, Hf in Es. cbn [length] in Es. glia. }
             specialize (Hsk (frame b) (j / R)). rewrite Es in Hsk. cbn [tl] in Hsk. cbn [app tl]. rewrite <- Hsk, <- app_assoc. f_equal.
             change [true] with (repeat true 1). now rewrite <- repeat_app.
      + assert (Ediv : (j + 1) / R = j / R) by (now apply div_no_tick).
        assert (Eend : j + 1 <> 10 * R). { intros E. rewrite E, Nat.mod_mul in Et by glia. glia. }
        rewrite (proj2 (Nat.eqb_neq _ _) Eend). cbn [fst tx_en tx_txd tx_data].
        split; [first [exact En | reflexivity]|]. split; [exact Hb|]. split; [glia|]. split; [|split].
        * rewrite Nat.add_mod, Hm by glia. rewrite (Nat.mod_small 1) by glia. apply Nat.mod_small. glia.
        * rewrite Htx, Ediv. destruct (Nat.ltb_spec j R), (Nat.ltb_spec (j + 1) R); try glia; [|reflexivity].
          assert (E : j + 1 = R) by glia. rewrite E, Nat.mod_same in Et by glia. glia.
        * rewrite Ediv. exact Hd.
    - destruct Hs as (En & Htx & Hm). rewrite En in *. cbn [negb andb]. rewrite ?andb_false_r. cbn [andb].
      cbn [atx_step fst snd]. split; [now rewrite Htx|]. exists (h ++ [(false, false)]). split; [reflexivity|].
      rewrite enabled_en. destruct (txi_vld i); cbn [andb tx_en tx_txd tx_data].
      + rewrite Nat.div_0_l by glia. cbn [skipn repeat]. rewrite app_nil_r.
        assert (E0 : (0 <? R) = true) by (apply Nat.ltb_lt; glia). rewrite E0. repeat split; try assumption; try reflexivity; glia.
      + auto.
  Qed.

  Lemma tx_outs d0 is : Forall (fun i => length (txi_data i) = 8) is ->
    outs (tx_step R) (tx_init R d0) is = outs (atx_step R) None is.
  Proof.
    intros H. assert (R0 : tx_rep (tx_init R d0) None).
    { exists []. repeat split. cbn. apply Nat.mod_0_l. lia. }
    revert R0. generalize (tx_init R d0) (None : option (list bool * nat)).
    induction H as [|i is Hi _ IH]; intros s st R0; [reflexivity|]. rewrite !outs_cons.
    destruct (tx_refine s st i R0 Hi) as [E1 E2]. rewrite E1. f_equal. now apply IH.
  Qed.

  Definition ast (is : list tx_in) n := final (atx_step R) None (firstn n is).
  Lemma ast_sound is n : n <= length is -> match ast is n with
    | Some (b, j) => j < 10 * R /\ j + 1 <= n /\ takes (trace (atx_step R) None is) (n - 1 - j) b
    | None => True end.
  Proof.
    induction n as [|n IH]; intros Hn; [exact I|]. specialize (IH ltac:(lia)).
    destruct (nth_error is n) as [i|] eqn:Ei; [|apply nth_error_None in Ei; lia].
    unfold ast in *. rewrite (final_S _ _ _ _ _ Ei). destruct (final (atx_step R) None (firstn n is)) as [[b j]|] eqn:Ef.
    - cbn [atx_step fst]. destruct (Nat.eqb_spec (j + 1) (10 * R)); [exact I|]. destruct IH as (A & B & C).
      split; [lia|]. split; [lia|]. now replace (S n - 1 - (j + 1)) with (n - 1 - j) by lia.
    - cbn [atx_step fst]. destruct (txi_vld i) eqn:Ev; [|exact I]. split; [lia|]. split; [lia|].
      exists (i, mk_txo true true). rewrite trace_nth. replace (S n - 1 - 0) with n by lia. cbn [fst snd]. rewrite Ef. auto.
  Qed.
  Lemma ast_takes is a b j : takes (trace (atx_step R) None is) a b -> j < 10 * R -> a + 1 + j <= length is ->
    ast is (a + 1 + j) = Some (b, j).
  Proof.
    intros ([i o] & E & V & Rd & D) Hj. apply trace_nth in E. cbn [fst snd] in *. destruct E as [Ei Eo].
    induction j as [|j IH]; intros Hl.
    - replace (a + 1 + 0) with (S a) by lia. unfold ast. rewrite (final_S _ _ _ _ _ Ei).
      destruct (final (atx_step R) None (firstn a is)) as [[b' j']|]; [now rewrite Eo in Rd|]. cbn [atx_step fst]. now rewrite V, D.
    - replace (a + 1 + S j) with (S (a + 1 + j)) by lia.
      destruct (nth_error is (a + 1 + j)) as [x|] eqn:Ex; [|apply nth_error_None in Ex; lia].
      specialize (IH ltac:(lia) ltac:(lia)). unfold ast in *. rewrite (final_S _ _ _ _ _ Ex), IH. cbn [atx_step fst].
      rewrite (proj2 (Nat.eqb_neq _ _)) by lia. now rewrite Nat.add_1_r.
  Qed.

  Lemma tx_trace d0 is : Forall (fun i => length (txi_data i) = 8) is ->
    trace (tx_step R) (tx_init R d0) is = trace (atx_step R) None is.
  Proof. intros H. unfold trace. now rewrite tx_outs. Qed.

  Lemma takes_8 is a b : Forall (fun i => length (txi_data i) = 8) is -> takes (trace (atx_step R) None is) a b -> length b = 8.
  Proof.
    intros H ([i o] & E & _ & _ & <-). apply trace_nth in E. destruct E as [E _]. cbn [fst] in *.
    rewrite Forall_forall in H. apply H. now apply nth_error_In in E.
  Qed.

  Lemma tx_line_bits d0 is a b k m : Forall (fun i => length (txi_data i) = 8) is ->
    let t := trace (tx_step R) (tx_init R d0) is in
    takes t a b -> k < 10 -> m < R -> a + 1 + (k + 1) * R + m < length t ->
    exists v, nth_error (frame b) k = Some v /\ line t (a + 1 + (k + 1) * R + m) v.
  Proof.
    intros H. cbv zeta. rewrite (tx_trace _ _ H), trace_length. intros Ht Hk Hm Hl.
    pose proof (takes_8 _ _ _ H Ht) as Hb. pose proof (frame_len _ Hb) as Hf.
    set (n := a + 1 + (k + 1) * R + m) in *.
    destruct (nth_error is n) as [i|] eqn:Ei; [|apply nth_error_None in Ei; lia].
    destruct (nth_error (frame b) k) as [v|] eqn:Ev; [|apply nth_error_None in Ev; lia]. exists v. split; [reflexivity|].
    exists (i, snd (atx_step R (ast is n) i)). rewrite trace_nth. cbn [fst snd]. split; [auto|].
    destruct (Nat.eq_dec k 9) as [->|Hk9].
    - assert (v = true) as ->.
      { change (nth_error (b ++ [true]) 8 = Some v) in Ev. rewrite nth_error_app2, Hb in Ev by lia. now injection Ev. }
      pose proof (ast_sound is n ltac:(lia)) as S. destruct (ast is n) as [[b' j']|] eqn:Ea; [|reflexivity].
      destruct S as (S1 & S2 & S3). cbn [atx_step snd txo_txd]. destruct (Nat.ltb_spec j' R); [reflexivity|exfalso].
      set (a' := n - 1 - j') in *.
      assert (a + 1 <= a' <= a + 10 * R) as Ha' by (subst a' n; lia).
      pose proof (ast_takes is a b (a' - (a + 1)) Ht ltac:(lia) ltac:(subst a'; lia)) as Q.
      replace (a + 1 + (a' - (a + 1))) with a' in Q by lia.
      destruct S3 as ([i' o'] & E & V & Rd & D). apply trace_nth in E. cbn [fst snd] in *. destruct E as [_ E].
      unfold ast in Q. rewrite Q in E. subst o'. discriminate.
    - replace n with (a + 1 + ((k + 1) * R + m)) by (subst n; lia). rewrite (ast_takes is a b ((k + 1) * R + m)) by (try assumption; nia). cbn [atx_step snd txo_txd].
      destruct (Nat.ltb_spec ((k + 1) * R + m) R); [nia|].
      assert (E : ((k + 1) * R + m) / R = k + 1) by (symmetry; apply Nat.div_unique with (r := m); nia). rewrite E.
      replace (k + 1 - 1) with k by lia. now apply nth_error_nth.
  Qed.

  Lemma tx_line_low d0 is n : Forall (fun i => length (txi_data i) = 8) is ->
    let t := trace (tx_step R) (tx_init R d0) is in
    line t n false -> exists a b k m, takes t a b /\ m < R /\ n = a + 1 + (k + 1) * R + m /\ nth_error (frame b) k = Some false.
  Proof.
    intros H. cbv zeta. rewrite (tx_trace _ _ H). intros ([i o] & E & Eo). apply trace_nth in E. cbn [fst snd] in *.
    destruct E as [Ei ->]. assert (Hn : n < length is) by (apply nth_error_Some; congruence).
    pose proof (ast_sound is n ltac:(lia)) as S. fold (ast is n) in Eo. destruct (ast is n) as [[b j]|]; [|discriminate].
    destruct S as (S1 & S2 & S3). cbn [atx_step snd txo_txd] in Eo. destruct (Nat.ltb_spec j R); [discriminate|].
    pose proof (Nat.div_mod j R ltac:(lia)) as D. pose proof (Nat.mod_upper_bound j R ltac:(lia)) as M.
    assert (1 <= j / R). { apply Nat.div_le_lower_bound; lia. }
    pose proof (takes_8 _ _ _ H S3) as Hb. pose proof (frame_len _ Hb) as Hf.
    exists (n - 1 - j), b, (j / R - 1), (j mod R). split; [exact S3|]. split; [exact M|]. split.
    - replace (j / R - 1 + 1) with (j / R) by glia. rewrite (Nat.mul_comm (j / R)). glia.
    - rewrite <- Eo. apply nth_error_nth'. rewrite Hf. assert (j / R < 10) by (apply Nat.div_lt_upper_bound; lia). glia.
  Qed.

  Lemma tx_ready d0 is n c : Forall (fun i => length (txi_data i) = 8) is ->
    let t := trace (tx_step R) (tx_init R d0) is in
    nth_error t n = Some c ->
    (txo_rd (snd c) = false <-> exists a b, takes t a b /\ a < n /\ n <= a + 10 * R).
  Proof.
    intros H. cbv zeta. rewrite (tx_trace _ _ H). intros E. apply trace_nth in E. destruct E as [Ei Eo].
    assert (Hn : n < length is) by (apply nth_error_Some; congruence). fold (ast is n) in Eo. split.
    - intros Hr. pose proof (ast_sound is n ltac:(lia)) as S. rewrite Eo in Hr. destruct (ast is n) as [[b j]|]; [|discriminate].
      destruct S as (S1 & S2 & S3). exists (n - 1 - j), b. split; [exact S3|lia].
    - intros (a & b & Ht & A1 & A2). pose proof (ast_takes is a b (n - 1 - a) Ht ltac:(lia) ltac:(lia)) as Q.
      replace (a + 1 + (n - 1 - a)) with n in Q by lia. now rewrite Q in Eo; rewrite Eo.
  Qed.
End Tx.


(** * the receiver *)
Section Rx.
  Variables T os : nat.
  Hypothesis HT : 1 <= T.
  Hypothesis Hos : 2 <= os.

  Definition rx_timers s h1 h2 h3 : Prop := rx_t1 s = TT [T] h1 /\ rx_t2 s = TT [os] h2 /\ rx_t3 s = TT [10] h3.
  Definition Idle s : Prop :=
    rx_en s = false /\ rx_first s = true /\ rx_cntr s = 0 /\ length (rx_data s) = 9 /\ exists h1 h2 h3, rx_timers s h1 h2 h3.
  (** samples which are 1 among the first [j] counted ones of bit [q] *)
  Definition wv (w : list bool) n : bool := nth n w false.
  Fixpoint cnt (w : list bool) q j : nat :=
    match j with 0 => 0 | S j => cnt w q j + if wv w ((q * os + S j) * T) then 1 else 0 end.
  Definition Busy w b (q j r : nat) s : Prop :=
    q < 10 /\ j < os /\ r < T /\ rx_en s = true /\ rx_first s = (q =? 0) /\ rx_cntr s = cnt w q j /\
    (exists p, rx_data s = p ++ firstn q (frame b) /\ length p + q = 9) /\
    exists h1 h2 h3, rx_timers s h1 h2 h3 /\ enabled_since h1 mod T = r /\ enabled_since h2 mod os = j /\ enabled_since h3 = q.

  Lemma idle_step s x : Idle s ->
    given (snd (rx_step T os s x)) = None /\ rx_sync (fst (rx_step T os s x)) = x /\
    (rx_sync s = true -> Idle (fst (rx_step T os s x))) /\
    (rx_sync s = false -> forall w b, Busy w b 0 0 0 (fst (rx_step T os s x))).
  Proof.
    intros (E1 & E2 & E3 & E4 & h1 & h2 & h3 & T1 & T2 & T3). unfold rx_step. rewrite T1, T2, T3, E1. cbn [negb].
    rewrite timer1_rst. rewrite timer1_rst. rewrite timer1_rst. cbn [andb negb fst snd rx_sync]. rewrite ?andb_false_r.
    split; [reflexivity|]. split; [reflexivity|]. split; intros Es; rewrite Es; cbn [negb].
    - repeat split; cbn; auto. do 3 eexists. repeat split; reflexivity.
    - intros w b. repeat split; cbn; auto; try lia.
      + exists (rx_data s). rewrite app_nil_r. split; [reflexivity|lia].
      + do 3 eexists. repeat split; try reflexivity; rewrite enabled_rst; auto using Nat.mod_0_l; apply Nat.mod_0_l; lia.
  Qed.

  Lemma cnt_le w q j : cnt w q j <= j.
  Proof. induction j; cbn [cnt]; [lia|]. destruct (wv _ _); lia. Qed.
  Lemma cnt_zero w q j k : (forall i, k < i -> i <= j -> wv w ((q * os + i) * T) = false) -> cnt w q j <= k.
  Proof.
    induction j as [|j IH]; intros H; cbn [cnt]; [lia|]. destruct (le_lt_dec (S j) k).
    - pose proof (cnt_le w q j). destruct (wv _ _); lia.
    - rewrite H by lia. rewrite Nat.add_0_r. apply IH. intros. apply H; lia.
  Qed.
  Lemma cnt_one w q j k : (forall i, k < i -> i <= j -> wv w ((q * os + i) * T) = true) -> j <= cnt w q j + k.
  Proof.
    induction j as [|j IH]; intros H; cbn [cnt]; [lia|]. destruct (le_lt_dec (S j) k).
    - lia.
    - rewrite H by lia. specialize (IH ltac:(intros; apply H; lia)). lia.
  Qed.

  Variable w : list bool.
  Variable b : list bool.
  Variable g : nat.
  Hypothesis Hgood : good_frame T os (mk_rxf g b w).

  Lemma wlen : length w = 10 * os * T + 1. Proof. apply Hgood. Qed.
  Lemma blen : length b = 8. Proof. apply Hgood. Qed.
  Lemma half : 1 <= os / 2 /\ os / 2 + os / 2 <= os.
  Proof.
    split; [apply Nat.div_le_lower_bound; lia|]. pose proof (Nat.div_mod os 2 ltac:(lia)). glia.
  Qed.

  Lemma majority q : q < 10 -> nth_error (frame b) q = Some (os / 2 - 1 <? cnt w q (os - 1)).
  Proof.
    intros Hq. destruct Hgood as (Hb & Hw & H0 & H). cbn [f_byte f_wave] in *.
    pose proof half as [Hh1 Hh2]. pose proof (frame_len b Hb) as Hf.
    destruct (nth_error (frame b) q) as [v|] eqn:Ev; [|apply nth_error_None in Ev; lia]. f_equal.
    assert (A : forall i, os / 2 - 1 < i -> i <= os - 1 -> wv w ((q * os + i) * T) = v).
    { intros i I1 I2. specialize (H q i Hq ltac:(glia) ltac:(lia)). rewrite Ev in H. unfold wv. now apply nth_error_nth. }
    destruct v; symmetry.
    - apply Nat.ltb_lt. pose proof (cnt_one w q (os - 1) (os / 2 - 1) A). glia.
    - apply Nat.ltb_ge. exact (cnt_zero w q (os - 1) (os / 2 - 1) A).
  Qed.

  Lemma mod_next n m k : 1 <= m -> n mod m = k -> (k + 1 < m -> (n + 1) mod m = k + 1) /\ (k + 1 = m -> (n + 1) mod m = 0).
  Proof.
    intros Hm <-. split; intros H.
    - rewrite Nat.add_mod by lia. destruct (Nat.eq_dec m 1) as [->|]; [lia|].
      rewrite (Nat.mod_small 1) by lia. apply Nat.mod_small. exact H.
    - rewrite <- Nat.add_mod_idemp_l by lia. rewrite H. apply Nat.mod_same. lia.
  Qed.

  Lemma wrap_cnt q j : j < os -> winc (log2ceil os + 1) (cnt w q j) = cnt w q j + 1.
  Proof.
    intros Hj. apply winc_small. pose proof (cnt_le w q j). pose proof (log2ceil_ge os).
    rewrite Nat.pow_add_r, Nat.pow_1_r. lia.
  Qed.

  Lemma busy_step q j r s x : Busy w b q j r s -> rx_sync s = wv w (1 + (q * os + j) * T + r) ->
    let s' := fst (rx_step T os s x) in
    let o := given (snd (rx_step T os s x)) in
    rx_sync s' = x /\
    ((r + 1 < T /\ o = None /\ Busy w b q j (r + 1) s') \/
     (r + 1 = T /\ j + 1 < os /\ o = None /\ Busy w b q (j + 1) 0 s') \/
     (r + 1 = T /\ j + 1 = os /\ q < 9 /\ o = None /\ Busy w b (q + 1) 0 0 s') \/
     (r + 1 = T /\ j + 1 = os /\ q = 9 /\ o = Some b /\ Idle s')).
  Proof.
    intros (Hq & Hj & Hr & E1 & E2 & E3 & (p & E4 & Hp) & h1 & h2 & h3 & (T1 & T2 & T3) & M1 & M2 & M3) Hs. cbv zeta.
    unfold rx_step. rewrite T1, T2, T3, E1. cbn [negb].
    rewrite timer1_run by lia. rewrite timer1_run by lia. rewrite timer1_run by lia. cbn [andb fst snd rx_sync].
    split; [reflexivity|]. rewrite M3.
    destruct (mod_next _ _ _ HT M1) as [N1 N1']. destruct (mod_next _ _ _ (Nat.lt_le_incl _ _ Hos) M2) as [N2 N2'].
    destruct (Nat.lt_ge_cases (r + 1) T) as [Hr1|Hr1].
    { left. split; [exact Hr1|]. rewrite (N1 Hr1). rewrite (proj2 (Nat.eqb_neq (r + 1) 0)) by lia. cbn [andb].
      rewrite ?andb_false_r. split; [reflexivity|]. repeat split; cbn; auto.
      - exists p. auto.
      - do 3 eexists. repeat split; try reflexivity; rewrite enabled_en; auto. }
    right. assert (Hr2 : r + 1 = T) by lia. rewrite (N1' Hr2), Nat.eqb_refl. cbn [andb].
    assert (Hs' : rx_sync s = wv w ((q * os + S j) * T)) by (rewrite Hs; f_equal; nia).
    destruct (Nat.lt_ge_cases (j + 1) os) as [Hj1|Hj1].
    { left. split; [exact Hr2|]. split; [exact Hj1|]. rewrite (N2 Hj1). rewrite (proj2 (Nat.eqb_neq (j + 1) 0)) by lia. cbn [andb].
      rewrite ?andb_false_r. split; [reflexivity|]. rewrite E3, Hs', (wrap_cnt q j Hj).
      repeat split; cbn [rx_en rx_first rx_cntr rx_data rx_t1 rx_t2 rx_t3]; auto; try lia.
      - rewrite (Nat.add_1_r j). change (cnt w q (S j)) with (cnt w q j + if wv w ((q * os + S j) * T) then 1 else 0). destruct (wv w ((q * os + S j) * T)); [reflexivity|symmetry; apply Nat.add_0_r].
      - exists p. auto.
      - do 3 eexists. repeat split; try reflexivity; rewrite enabled_en; auto. }
    right. assert (Hj2 : j + 1 = os) by lia. rewrite (N2' Hj2), Nat.eqb_refl. cbn [andb].
    pose proof (majority q Hq) as Hmaj. replace (os - 1) with j in Hmaj by lia. rewrite <- E3 in Hmaj.
    set (bit := os / 2 - 1 <? rx_cntr s) in *.
    pose proof blen as Hb. pose proof (frame_len b Hb) as Hf.
    destruct (Nat.eq_dec q 9) as [->|Hq9].
    - right. split; [exact Hr2|]. split; [exact Hj2|]. split; [reflexivity|].
      change ((9 + 1) mod 10 =? 0) with true. rewrite E2. cbn [Nat.eqb andb negb].
      assert (Ep : p = []) by (destruct p; [reflexivity|cbn in Hp; lia]). subst p.
      assert (Ed : rx_data s = false :: b).
      { rewrite E4. cbn [app]. change (firstn 9 (frame b)) with (false :: firstn 8 (b ++ [true])). f_equal. rewrite firstn_app, Hb. cbn [Nat.sub].
        change (firstn 0 [true]) with (@nil bool). rewrite app_nil_r. apply firstn_all2. lia. }
      assert (Eb : bit = true).
      { change (nth_error (b ++ [true]) 8 = Some bit) in Hmaj. rewrite nth_error_app2, Hb in Hmaj by lia. now injection Hmaj. }
      rewrite Ed, Eb. cbn [hd tl negb andb given]. split; [reflexivity|].
      repeat split; cbn [rx_en rx_first rx_cntr rx_data rx_t1 rx_t2 rx_t3]; auto.
      + do 3 eexists. repeat split; reflexivity.
    - left. split; [exact Hr2|]. split; [exact Hj2|]. split; [lia|].
      rewrite (Nat.mod_small (q + 1) 10), (proj2 (Nat.eqb_neq (q + 1) 0)) by lia. cbn [andb]. split; [reflexivity|].
      assert (Hns : rx_first s && true && bit = false).
      { rewrite E2, andb_true_r. destruct (Nat.eqb_spec q 0) as [->|]; [|reflexivity]. change (Some false = Some bit) in Hmaj. injection Hmaj as E0. rewrite <- E0. reflexivity. }
      rewrite Hns. repeat split; cbn [rx_en rx_first rx_cntr rx_data rx_t1 rx_t2 rx_t3]; auto; try lia.
      + destruct p as [|y p]; [cbn in Hp; lia|]. exists p. rewrite E4. cbn [app tl]. split; [|cbn in Hp; lia].
        rewrite <- app_assoc. f_equal. rewrite Nat.add_1_r. symmetry. clear - Hmaj.
        revert q Hmaj. generalize (frame b). induction l as [|a l IH]; intros [|q] H; cbn in H; try discriminate.
        * injection H as ->. reflexivity.
        * cbn [firstn app]. f_equal. now apply IH.
      + do 3 eexists. repeat split; try reflexivity; rewrite enabled_en; auto.
  Qed.

  Definition epos q j r := (q * os + j) * T + r.
  Lemma busy_run n : forall q j r s xs y, Busy w b q j r s -> n + epos q j r + 1 = 10 * os * T ->
    rx_sync s :: xs = skipn (1 + epos q j r) w ++ [y] ->
    map given (outs (rx_step T os) s xs) = repeat None n ++ [Some b] /\
    Idle (final (rx_step T os) s xs) /\ rx_sync (final (rx_step T os) s xs) = y.
  Proof.
    induction n as [|n IH]; intros q j r s xs y B Hn Hx.
    - assert (Hl : length (skipn (1 + epos q j r) w) = 1) by (rewrite skipn_length, wlen; lia).
      destruct (skipn (1 + epos q j r) w) as [|v [|? ?]] eqn:Ew; try discriminate. cbn [app] in Hx. injection Hx as Hv ->.
      assert (Hs : rx_sync s = wv w (1 + (q * os + j) * T + r)).
      { rewrite Hv. unfold wv. replace (1 + (q * os + j) * T + r) with (1 + epos q j r + 0) by (unfold epos; lia).
        rewrite <- (firstn_skipn (1 + epos q j r) w), Ew. rewrite app_nth2; rewrite firstn_length, wlen; [|lia].
        now replace (1 + epos q j r + 0 - Nat.min (1 + epos q j r) (10 * os * T + 1)) with 0 by lia. }
      pose proof (busy_step q j r s y B Hs) as (S1 & S2). rewrite outs_cons, outs_nil, final_cons, final_nil. cbn [map repeat app].
      destruct B as (Hq & Hj & Hr & _). unfold epos in Hn.
      destruct S2 as [(A & _)|[(A1 & A2 & _)|[(A1 & A2 & A3 & _)|(A1 & A2 & A3 & Ao & AI)]]]; try nia.
      rewrite Ao. auto.
    - assert (Hl : length (skipn (1 + epos q j r) w) = S (S n)) by (rewrite skipn_length, wlen; lia).
      destruct (skipn (1 + epos q j r) w) as [|v l] eqn:Ew; try discriminate. cbn [app] in Hx. injection Hx as Hv Hxs.
      destruct l as [|v2 l]; [discriminate|]. subst xs. cbn [app]. rewrite outs_cons, final_cons. cbn [map repeat app].
      assert (Hs : rx_sync s = wv w (1 + (q * os + j) * T + r)).
      { rewrite Hv. unfold wv. replace (1 + (q * os + j) * T + r) with (1 + epos q j r + 0) by (unfold epos; lia).
        rewrite <- (firstn_skipn (1 + epos q j r) w), Ew. rewrite app_nth2; rewrite firstn_length, wlen; [|lia].
        now replace (1 + epos q j r + 0 - Nat.min (1 + epos q j r) (10 * os * T + 1)) with 0 by lia. }
      assert (Hsk : skipn (1 + (epos q j r + 1)) w = v2 :: l).
      { assert (G : forall (u : list bool) k a t, skipn k u = a :: t -> skipn (S k) u = t).
        { clear. induction u as [|z u IHu]; intros [|k] a t H; cbn in H; try discriminate.
          - now injection H as _ ->. - cbn [skipn]. now apply IHu in H. }
        replace (1 + (epos q j r + 1)) with (S (1 + epos q j r)) by lia. now apply G in Ew. }
      pose proof (busy_step q j r s v2 B Hs) as (S1 & S2). destruct B as (Hq & Hj & Hr & _).
      assert (K : forall q' j' r', epos q' j' r' = epos q j r + 1 -> given (snd (rx_step T os s v2)) = None ->
                  Busy w b q' j' r' (fst (rx_step T os s v2)) ->
        given (snd (rx_step T os s v2)) :: map given (outs (rx_step T os) (fst (rx_step T os s v2)) (l ++ [y])) =
          None :: repeat None n ++ [Some b] /\
        Idle (final (rx_step T os) (fst (rx_step T os s v2)) (l ++ [y])) /\
        rx_sync (final (rx_step T os) (fst (rx_step T os s v2)) (l ++ [y])) = y).
      { intros q' j' r' Ee Eo B'. rewrite Eo.
        destruct (IH q' j' r' (fst (rx_step T os s v2)) (l ++ [y]) y B' ltac:(lia)) as (I1 & I2 & I3).
        - rewrite Ee, Hsk, S1. reflexivity.
        - rewrite I1. auto. }
      destruct S2 as [(A & Ao & AB)|[(A1 & A2 & Ao & AB)|[(A1 & A2 & A3 & Ao & AB)|(A1 & A2 & A3 & _)]]].
      + refine (K q j (r + 1) _ Ao AB). unfold epos. lia.
      + refine (K q (j + 1) 0 _ Ao AB). unfold epos. rewrite (Nat.add_assoc _ j 1), (Nat.mul_add_distr_r (q * os + j) 1 T). lia.
      + refine (K (q + 1) 0 0 _ Ao AB). unfold epos. replace ((q + 1) * os + 0) with (q * os + j + 1) by (rewrite Nat.mul_add_distr_r; lia).
        rewrite (Nat.mul_add_distr_r (q * os + j) 1 T). lia.
      + exfalso. unfold epos in Hn. subst q. nia.
  Qed.

  Lemma idle_run n : forall s xs y, Idle s -> rx_sync s :: xs = repeat true n ++ [y] ->
    map given (outs (rx_step T os) s xs) = repeat None n /\ Idle (final (rx_step T os) s xs) /\
    rx_sync (final (rx_step T os) s xs) = y.
  Proof.
    induction n as [|n IH]; intros s xs y I Hx.
    - cbn in Hx. injection Hx as E ->. rewrite outs_nil, final_nil. auto.
    - cbn [repeat app] in Hx. injection Hx as E Hx.
      assert (exists z zs, xs = z :: zs) as (z & zs & ->).
      { destruct xs as [|z zs]; [|eauto]. destruct n; discriminate. }
      destruct (idle_step s z I) as (O & Sy & It & _). rewrite outs_cons, final_cons. cbn [map repeat]. rewrite O.
      destruct (IH (fst (rx_step T os s z)) zs y (It E)) as (A & B & C); [now rewrite Sy|]. rewrite A. auto.
  Qed.

  Lemma frame_run s xs y : Idle s -> rx_sync s :: xs = repeat true g ++ w ++ [y] ->
    map given (outs (rx_step T os) s xs) = repeat None (g + 10 * os * T) ++ [Some b] /\
    Idle (final (rx_step T os) s xs) /\ rx_sync (final (rx_step T os) s xs) = y.
  Proof.
    intros I Hx. pose proof wlen as Hw.
    assert (exists v1 w'', w = false :: v1 :: w'') as (v1 & w'' & Ew).
    { destruct Hgood as (_ & _ & H0 & _). cbn [f_wave] in H0. clear Hx. clear Hgood.
      destruct w as [|v0 [|v1 w'']]; [discriminate|cbn in Hw; nia|]. cbn in H0. injection H0 as ->. eauto. }
    rewrite Ew in Hx.
    assert (exists g1, xs = g1 ++ (v1 :: w'') ++ [y] /\ rx_sync s :: g1 = repeat true g ++ [false]) as (g1 & -> & Hg).
    { clear Hgood. destruct g as [|g']; cbn [repeat app] in Hx |- *.
      - injection Hx as E ->. exists []. cbn. now rewrite E.
      - injection Hx as E ->. exists (repeat true g' ++ [false]). rewrite <- !app_assoc. cbn [app]. now rewrite E. }
    destruct (idle_run g s g1 false I Hg) as (A & B & C). rewrite outs_app, map_app, final_app, A.
    set (s1 := final (rx_step T os) s g1) in *.
    cbn [app]. rewrite outs_cons, final_cons. cbn [map].
    destruct (idle_step s1 v1 B) as (O & Sy & _ & Bz). rewrite O. specialize (Bz C w b).
    destruct (busy_run (10 * os * T - 1) 0 0 0 (fst (rx_step T os s1 v1)) (w'' ++ [y]) y Bz) as (D & F & G).
    - unfold epos. nia.
    - unfold epos. rewrite Ew. cbn [Nat.mul Nat.add skipn app]. now rewrite Sy.
    - rewrite D. split; [|auto]. rewrite repeat_app, <- app_assoc. f_equal.
      replace (10 * os * T) with (S (10 * os * T - 1)) at 2 by nia. reflexivity.
  Qed.
End Rx.

Lemma idle_init T os d0 : length d0 = 9 -> Idle T os (rx_init T os d0).
Proof. intros H. repeat split; auto. exists [], [], []. repeat split. Qed.

Definition exp1 (T os : nat) (f : rx_frame) : list (option (list bool)) := repeat None (f_gap f + 10 * os * T) ++ [Some (f_byte f)].
Lemma frames_run T os (HT : 1 <= T) (Hos : 2 <= os) fs : Forall (good_frame T os) fs -> forall s xs y, Idle T os s ->
  rx_sync s :: xs = rx_line fs ++ [y] ->
  map given (outs (rx_step T os) s xs) = flat_map (exp1 T os) fs /\
  Idle T os (final (rx_step T os) s xs) /\ rx_sync (final (rx_step T os) s xs) = y.
Proof.
  induction 1 as [|f fs Hf _ IH]; intros s xs y I Hx.
  - cbn in Hx. injection Hx as E ->. rewrite outs_nil, final_nil. auto.
  - destruct f as [g b w]. unfold rx_line in Hx. cbn [flat_map f_gap f_wave] in Hx. fold (rx_line fs) in Hx.
    assert (exists z zs, rx_line fs ++ [y] = z :: zs) as (z & zs & Ez) by (destruct (rx_line fs); cbn; eauto).
    rewrite <- app_assoc, Ez in Hx.
    assert (exists x1, xs = x1 ++ zs /\ rx_sync s :: x1 = repeat true g ++ w ++ [z]) as (x1 & -> & H1).
    { destruct g as [|g']; cbn [repeat app] in *.
      - destruct w as [|v w]; [destruct Hf as (_ & Hw & _); cbn in Hw; lia|]. cbn [app] in *. injection Hx as E ->.
        exists (w ++ [z]). rewrite <- app_assoc. cbn. now rewrite E.
      - injection Hx as E ->. exists (repeat true g' ++ w ++ [z]). rewrite <- !app_assoc. cbn. now rewrite E. }
    destruct (frame_run T os HT Hos w b g Hf s x1 z I H1) as (A & B & C).
    destruct (IH _ zs y B) as (D & E & F); [now rewrite C|].
    rewrite outs_app, map_app, final_app, A, D. cbn [flat_map]. auto.
Qed.

Lemma rx_correct T os d0 fs x : 1 <= T -> 2 <= os -> length d0 = 9 -> Forall (good_frame T os) fs ->
  map given (outs (rx_step T os) (rx_init T os d0) (rx_line fs ++ [x])) = rx_expected T os fs.
Proof.
  intros HT Hos Hd Hf. pose proof (idle_init T os d0 Hd) as I.
  assert (exists z zs, rx_line fs ++ [x] = z :: zs) as (z & zs & Ez) by (destruct (rx_line fs); cbn; eauto).
  rewrite Ez, outs_cons. cbn [map]. destruct (idle_step T os HT Hos _ z I) as (O & Sy & It & _). rewrite O. specialize (It eq_refl).
  unfold rx_expected. f_equal. apply (frames_run T os HT Hos fs Hf _ zs x It). now rewrite Sy, Ez.
Qed.

(** * the receiver connected to the transmitter *)
Section Loop.
  Variables R os : nat.
  Hypothesis Hos : 2 <= os.
  Hypothesis HRos : os <= R.
  Hypothesis Hacc : 9 * (R mod os) <= (os / 2) * (R / os).
  Let T := R / os.

  Lemma T_pos : 1 <= T. Proof. apply Nat.div_le_lower_bound; lia. Qed.
  Lemma R_pos : 1 <= R. Proof. lia. Qed.
  Lemma R_eq : exists d, R = os * T + d /\ d < os /\ 9 * d <= (os / 2) * T.
  Proof. exists (R mod os). split; [apply Nat.div_mod; lia|]. split; [apply Nat.mod_upper_bound; lia|exact Hacc]. Qed.
  Lemma half2 : os / 2 + os / 2 <= os.
  Proof. pose proof (Nat.div_mod os 2 ltac:(lia)). glia. Qed.

  Definition W := 10 * os * T + 1.
  Lemma W_bounds : 9 * R <= W /\ W <= 10 * R + 1.
  Proof.
    destruct R_eq as (d & E & D1 & D2). pose proof half2. unfold W.
    assert ((os / 2) * T <= os * T) by (apply Nat.mul_le_mono_r; lia). rewrite E. nia.
  Qed.

  Definition bits b : list bool := map (fun e => nth (e / R) (frame b) true) (seq 0 (9 * R)).
  Definition wave b : list bool := bits b ++ repeat true (W - 9 * R).

  Lemma wave_good g b : length b = 8 -> good_frame T os (mk_rxf g b (wave b)).
  Proof.
    intros Hb. pose proof W_bounds as [B1 B2]. pose proof (frame_len b Hb) as Hf. pose proof R_pos as HR.
    assert (Lb : length (bits b) = 9 * R) by (unfold bits; now rewrite map_length, seq_length).
    repeat split; cbn [f_byte f_wave].
    - exact Hb.
    - unfold wave. rewrite app_length, Lb, repeat_length. unfold W in *. lia.
    - unfold wave. rewrite nth_error_app1 by lia. unfold bits. erewrite map_nth_error with (d := 0).
      + rewrite Nat.div_0_l by lia. reflexivity.
      + rewrite (nth_error_nth' _ 0) by (rewrite seq_length; lia). now rewrite seq_nth by lia.
    - intros k j Hk Hj1 Hj2. destruct R_eq as (d & E & D1 & D2).
      assert (A1 : k * R <= (k * os + j) * T).
      { rewrite E. assert ((os / 2) * T <= j * T) by (apply Nat.mul_le_mono_r; exact Hj1). nia. }
      assert (A2 : (k * os + j) * T < (k + 1) * R).
      { rewrite E. pose proof T_pos. assert (j * T <= (os - 1) * T) by (apply Nat.mul_le_mono_r; lia). nia. }
      set (e := (k * os + j) * T) in *.
      destruct (Nat.eq_dec k 9) as [->|Hk9].
      + unfold wave. rewrite nth_error_app2, Lb by lia.
        assert (e < W). { unfold e, W. assert ((9 * os + j) * T <= (10 * os) * T) by (apply Nat.mul_le_mono_r; lia). lia. }
        rewrite (nth_error_nth' _ true) by (rewrite repeat_length; lia). rewrite nth_repeat.
        change (nth_error (frame b) 9) with (nth_error (b ++ [true]) 8). rewrite nth_error_app2, Hb by lia. reflexivity.
      + unfold wave. rewrite nth_error_app1 by nia. unfold bits. erewrite map_nth_error with (d := e).
        * assert (Ed : e / R = k) by (symmetry; apply Nat.div_unique with (r := e - R * k); nia). rewrite Ed.
          symmetry. apply nth_error_nth'. lia.
        * rewrite (nth_error_nth' _ 0) by (rewrite seq_length; nia). now rewrite seq_nth by nia.
  Qed.

  (** what the transmitter does, as blocks *)
  Definition sent b : list bool := map (fun j => if j <? R then true else nth (j / R - 1) (frame b) true) (seq 0 (10 * R)).
  Lemma sent_eq b : sent b = repeat true R ++ bits b.
  Proof.
    pose proof R_pos as HR. unfold sent, bits. replace (10 * R) with (R + 9 * R) by lia. rewrite seq_app, map_app. f_equal.
    - transitivity (map (fun _ : nat => true) (seq 0 R)).
      + apply map_ext_in. intros j Hj. apply in_seq in Hj. now rewrite (proj2 (Nat.ltb_lt j R)) by lia.
      + clear. generalize 0 as m. generalize R as n. induction n as [|n IHn]; intros m; cbn; [reflexivity|]. f_equal. apply IHn.
    - cbn [Nat.add]. assert (G : forall m k, map (fun j => if j <? R then true else nth (j / R - 1) (frame b) true) (seq (R + k) m) =
                        map (fun e => nth (e / R) (frame b) true) (seq k m)).
      { induction m as [|m IH]; intros k; [reflexivity|]. cbn [seq map]. f_equal.
        - rewrite (proj2 (Nat.ltb_ge (R + k) R)) by lia. f_equal.
          replace (R + k) with (k + 1 * R) by lia. rewrite Nat.div_add by lia. apply Nat.add_sub.
        - rewrite <- IH. now rewrite Nat.add_succ_r. }
      rewrite <- (G (9 * R) 0). now rewrite Nat.add_0_r.
  Qed.

  Definition tk (c : tx_in * tx_out) := taken (fst c) (snd c).
  Definition txdl (c : tx_in * tx_out) := txo_txd (snd c).
  Lemma atx_busy b xs : forall j, j + length xs = 10 * R -> 1 <= length xs ->
    map txdl (trace (atx_step R) (Some (b, j)) xs) =
      map (fun j => if j <? R then true else nth (j / R - 1) (frame b) true) (seq j (length xs)) /\
    map tk (trace (atx_step R) (Some (b, j)) xs) = repeat None (length xs) /\
    final (atx_step R) (Some (b, j)) xs = None.
  Proof.
    induction xs as [|x xs IH]; intros j Hj Hl; [cbn in Hl; lia|]. cbn [length] in *. rewrite trace_cons, final_cons.
    cbn [map seq repeat]. unfold txdl at 1, tk at 1, taken at 1. cbn [atx_step fst snd txo_txd txo_rd]. rewrite andb_false_r.
    destruct (Nat.eqb_spec (j + 1) (10 * R)) as [E|E].
    - destruct xs; [|cbn in Hj; lia]. rewrite trace_nil, final_nil. auto.
    - destruct (IH (j + 1) ltac:(lia) ltac:(lia)) as (A & B & C). rewrite A, B, C, Nat.add_1_r. auto.
  Qed.

  Definition idle_in := mk_txi false (repeat false 8).
  Definition tblock (p : nat * list bool) : list (option (list bool)) := repeat None (fst p) ++ Some (snd p) :: repeat None (10 * R).
  Definition lblock (p : nat * list bool) : list bool := repeat true (fst p + 1 + R) ++ bits (snd p).

  Lemma decomp n : forall is, length is <= n -> Forall (fun i => length (txi_data i) = 8) is ->
    exists M bs g, Forall (fun p : nat * list bool => length (snd p) = 8) bs /\
      map tk (trace (atx_step R) None (is ++ repeat idle_in M)) = flat_map tblock bs ++ repeat None g /\
      map txdl (trace (atx_step R) None (is ++ repeat idle_in M)) = flat_map lblock bs ++ repeat true g /\
      final (atx_step R) None (is ++ repeat idle_in M) = None.
  Proof.
    induction n as [|n IH]; intros is Hl H8; (destruct is as [|i is]; [exists 0, [], 0; repeat split; constructor|]).
    { cbn in Hl. lia. }
    cbn [length] in Hl. inversion H8 as [|? ? Hi His]; subst. destruct (txi_vld i) eqn:Ev.
    - assert (K : exists M0 js rest, is ++ repeat idle_in M0 = js ++ rest /\ length js = 10 * R /\ length rest <= length is /\
                  Forall (fun i => length (txi_data i) = 8) rest /\ (M0 = 0 \/ rest = [])).
      { destruct (le_lt_dec (10 * R) (length is)).
        - exists 0, (firstn (10 * R) is), (skipn (10 * R) is). rewrite firstn_skipn. cbn [repeat]. rewrite app_nil_r.
          rewrite firstn_length, skipn_length. repeat split; try lia.
          apply Forall_forall. intros z Hz. rewrite Forall_forall in His. apply His.
          rewrite <- (firstn_skipn (10 * R) is). apply in_or_app. auto.
        - exists (10 * R - length is), (is ++ repeat idle_in (10 * R - length is)), []. rewrite app_nil_r.
          rewrite app_length, repeat_length. repeat split; try (cbn; lia); auto. }
      destruct K as (M0 & js & rest & E & Lj & Lr & H8r & K).
      destruct (IH rest ltac:(lia) H8r) as (M & bs & g & B8 & A & B & C).
      exists (M0 + M), ((0, txi_data i) :: bs), g.
      assert (E2 : (i :: is) ++ repeat idle_in (M0 + M) = i :: js ++ (rest ++ repeat idle_in M)).
      { cbn [app]. f_equal. rewrite repeat_app, !app_assoc. now rewrite E. }
      rewrite E2, trace_cons, final_cons.
      destruct (atx_busy (txi_data i) js 0 Lj ltac:(pose proof R_pos; lia)) as (X & Y & Z).
      cbn [map]. unfold tk at 1, txdl at 1, taken at 1. cbn [atx_step fst snd txo_rd txo_txd]. rewrite Ev. cbn [andb].
      rewrite trace_app, final_app, !map_app, X, Y, Z, A, B, C, Lj. split; [constructor; assumption|].
      fold (sent (txi_data i)). rewrite sent_eq. cbn [flat_map]. unfold tblock at 2, lblock at 2. cbn [fst snd repeat app Nat.add].
      rewrite <- !app_assoc. auto.
    - destruct (IH is ltac:(lia) His) as (M & bs & g & B8 & A & B & C).
      cbn [app].
      assert (E : map tk (trace (atx_step R) None (i :: is ++ repeat idle_in M)) = None :: flat_map tblock bs ++ repeat None g /\
                  map txdl (trace (atx_step R) None (i :: is ++ repeat idle_in M)) = true :: flat_map lblock bs ++ repeat true g /\
                  final (atx_step R) None (i :: is ++ repeat idle_in M) = None).
      { rewrite trace_cons, final_cons. cbn [map]. unfold tk at 1, txdl at 1, taken at 1. cbn [atx_step fst snd txo_rd txo_txd].
        rewrite Ev. cbn [andb]. rewrite A, B, C. auto. }
      destruct E as (E1 & E2 & E3). destruct bs as [|[g1 b1] bs].
      + exists M, [], (S g). rewrite E1, E2, E3. auto.
      + exists M, ((S g1, b1) :: bs), g. rewrite E1, E2, E3. split; [|auto]. inversion B8; subst. constructor; assumption.
  Qed.

  Fixpoint to_frames (c : nat) (bs : list (nat * list bool)) : list rx_frame :=
    match bs with
    | [] => []
    | (g, b) :: bs => mk_rxf (g + 1 + R - c) b (wave b) :: to_frames (W - 9 * R) bs
    end.
  Definition c_end c (bs : list (nat * list bool)) := match bs with [] => c | _ => W - 9 * R end.
  Lemma c_end_le c bs : c <= R + 1 -> c_end c bs <= R + 1.
  Proof. pose proof W_bounds. destruct bs; cbn; lia. Qed.

  Lemma frames_line bs : forall c g, c <= R + 1 -> R + 1 <= g ->
    flat_map lblock bs ++ repeat true g = repeat true c ++ rx_line (to_frames c bs) ++ repeat true (g - c_end c bs).
  Proof.
    pose proof W_bounds as [B1 B2].
    induction bs as [|[g1 b] bs IH]; intros c g Hc Hg.
    - cbn [flat_map to_frames rx_line app c_end]. rewrite <- repeat_app. f_equal. lia.
    - cbn [flat_map to_frames]. unfold rx_line. cbn [flat_map f_gap f_wave]. fold (rx_line (to_frames (W - 9 * R) bs)).
      unfold lblock at 1. cbn [fst snd]. rewrite <- !app_assoc. rewrite (IH (W - 9 * R) g) by lia.
      replace (g1 + 1 + R) with (c + (g1 + 1 + R - c)) at 1 by lia. rewrite repeat_app, <- app_assoc. f_equal. f_equal.
      unfold wave. rewrite <- app_assoc. f_equal. f_equal. f_equal. f_equal. unfold c_end. destruct bs; reflexivity.
  Qed.

  Definition L := R + 10 * os * T + 2.
  Lemma frames_exp bs : forall c g, c <= R + 1 -> exists m,
    flat_map (exp1 T os) (to_frames c bs) ++ repeat None m = repeat None (L - 1 - c) ++ flat_map tblock bs ++ repeat None g.
  Proof.
    pose proof W_bounds as [B1 B2]. induction bs as [|[g1 b] bs IH]; intros c g Hc.
    - exists (L - 1 - c + g). cbn [to_frames flat_map app]. now rewrite repeat_app.
    - destruct (IH (W - 9 * R) g ltac:(lia)) as (m & E). exists m. cbn [to_frames flat_map]. unfold exp1 at 1, tblock at 1.
      cbn [f_gap f_byte fst snd]. rewrite <- !app_assoc. cbn [app]. rewrite E. rewrite !app_assoc, <- repeat_app. f_equal.
      + f_equal. unfold L. lia.
      + rewrite <- !app_assoc. f_equal. f_equal. f_equal. unfold L, W in *. lia.
  Qed.

  Lemma outs_firstn {St I O} (step : St -> I -> St * O) s is js :
    outs step s is = firstn (length is) (outs step s (is ++ js)).
  Proof. rewrite outs_app, firstn_app, outs_length, Nat.sub_diag. cbn [firstn]. rewrite app_nil_r. symmetry. apply firstn_all2. now rewrite outs_length. Qed.

  Lemma pad_eq {A} (z : A) l1 l2 m1 m2 n : l1 ++ repeat z m1 = l2 -> n <= length l1 + m2 -> n <= length l2 ->
    firstn n (l1 ++ repeat z m2) = firstn n l2.
  Proof.
    intros <- H1 H2. rewrite app_length, repeat_length in H2. rewrite !firstn_app. f_equal.
    assert (G : forall k m, k <= m -> firstn k (repeat z m) = repeat z k).
    { clear. induction k; intros [|m] H; cbn; try lia; try reflexivity. f_equal. apply IHk. lia. }
    rewrite !G by lia. reflexivity.
  Qed.

  Lemma loop_outs is : forall st rx, let o := outs (loop_step R T os) (st, rx) is in
    map fst o = outs (tx_step R) st is /\ map snd o = outs (rx_step T os) rx (map txo_txd (outs (tx_step R) st is)).
  Proof.
    induction is as [|i is IH]; intros st rx; [split; reflexivity|]. cbv zeta. rewrite !outs_cons. cbn [map]. rewrite outs_cons.
    destruct (tx_step R st i) as [st' o] eqn:E1. cbn [fst snd]. destruct (rx_step T os rx (txo_txd o)) as [rx' p] eqn:E2.
    assert (E : loop_step R T os (st, rx) i = ((st', rx'), (o, p))) by (unfold loop_step; cbn [fst snd]; now rewrite E1, E2).
    rewrite E. cbn [fst snd]. destruct (IH st' rx') as (A & B). cbv zeta in A, B. rewrite A, B. auto.
  Qed.

  Lemma loop_correct d0 e0 is : length e0 = 9 -> Forall (fun i => length (txi_data i) = 8) is ->
    let os' := outs (loop_step R T os) (tx_init R d0, rx_init T os e0) is in
    map (fun o => given (snd o)) os' =
    firstn (length is) (repeat None L ++ map (fun c => taken (fst c) (fst (snd c))) (combine is os')).
  Proof.
    intros He H8. cbv zeta. destruct (loop_outs is (tx_init R d0) (rx_init T os e0)) as (A & B). cbv zeta in A, B.
    set (o := outs (loop_step R T os) (tx_init R d0, rx_init T os e0) is) in *.
    rewrite <- (map_map snd given), B.
    assert (E : map (fun c => taken (fst c) (fst (snd c))) (combine is o) = map tk (trace (tx_step R) (tx_init R d0) is)).
    { unfold trace. rewrite <- A. clear. clearbody o. revert o. induction is as [|i is IH]; intros [|x o]; cbn [combine map]; try reflexivity.
      unfold tk at 1. cbn [fst snd]. f_equal. apply IH. }
    rewrite E. pose proof R_pos as HR. rewrite (tx_trace R HR d0 is H8), (tx_outs R HR d0 is H8).
    destruct (decomp (length is) is (le_n _) H8) as (M & bs & g & B8 & D1 & D2 & D3).
    (* extend the run by idle cycles *)
    set (k := L + 10 * R + 2). set (is' := is ++ repeat idle_in (M + k)).
    assert (Hk : forall n, map txdl (trace (atx_step R) None (repeat idle_in n)) = repeat true n /\ map tk (trace (atx_step R) None (repeat idle_in n)) = repeat None n).
    { clear. induction n as [|n [I1 I2]]; [split; reflexivity|]. cbn [repeat]. rewrite trace_cons. cbn [map].
      change (fst (atx_step R None idle_in)) with (@None (list bool * nat)). rewrite I1, I2. split; reflexivity. }
    assert (F1 : map tk (trace (atx_step R) None is') = flat_map tblock bs ++ repeat None (g + k)).
    { unfold is'. rewrite repeat_app, app_assoc, trace_app, map_app, D1, D3, (proj2 (Hk k)), <- app_assoc, <- repeat_app. reflexivity. }
    assert (F2 : map txdl (trace (atx_step R) None is') = flat_map lblock bs ++ repeat true (g + k)).
    { unfold is'. rewrite repeat_app, app_assoc, trace_app, map_app, D2, D3, (proj1 (Hk k)), <- app_assoc, <- repeat_app. reflexivity. }
    assert (G1 : map tk (trace (atx_step R) None is) = firstn (length is) (map tk (trace (atx_step R) None is'))).
    { unfold is'. rewrite trace_app, map_app, firstn_app, map_length, trace_length, Nat.sub_diag. cbn [firstn].
      rewrite app_nil_r. symmetry. apply firstn_all2. rewrite map_length, trace_length. lia. }
    assert (Htx : forall l, map txo_txd (outs (atx_step R) None l) = map txdl (trace (atx_step R) None l)).
    { intros l. unfold trace, txdl. pose proof (outs_length (atx_step R) None l) as Hl.
      revert Hl. generalize (outs (atx_step R) None l). clear. revert l.
      induction l as [|x l IH]; intros [|y ys] Hl; try discriminate; [reflexivity|]. cbn [combine map snd]. f_equal. apply IH.
      cbn in Hl. lia. }
    rewrite Htx.
    assert (G2 : exists ys, map txdl (trace (atx_step R) None is') = map txdl (trace (atx_step R) None is) ++ ys).
    { unfold is'. rewrite trace_app, map_app. eauto. }
    destruct G2 as (ys & G2).
    assert (Hlen : length (map txdl (trace (atx_step R) None is)) = length is) by (rewrite map_length; apply trace_length).
    rewrite (outs_firstn (rx_step T os) _ _ ys), <- G2, Hlen, F2, <- firstn_map.
    (* the line as frames *)
    pose proof W_bounds as [W1 W2]. rewrite (frames_line bs 0 (g + k)) by (unfold k; lia). cbn [repeat app].
    set (m0 := g + k - c_end 0 bs). assert (Hc : c_end 0 bs <= R + 1) by (apply c_end_le; lia).
    assert (Hm0 : exists m1, m0 = S m1) by (exists (m0 - 1); unfold m0, k; lia). destruct Hm0 as (m1 & Em0).
    rewrite Em0. cbn [repeat].
    replace (rx_line (to_frames 0 bs) ++ true :: repeat true m1) with ((rx_line (to_frames 0 bs) ++ [true]) ++ repeat true m1)
      by (now rewrite <- app_assoc).
    assert (Hg : forall c, Forall (good_frame T os) (to_frames c bs)).
    { clear - B8 Hos HRos Hacc. induction bs as [|[g b] bs IH]; intros c; cbn [to_frames]; [constructor|].
      inversion B8; subst. constructor; [apply wave_good; assumption|]. now apply IH. }
    pose proof T_pos as HT. pose proof (idle_init T os e0 He) as I0.
    assert (exists z zs, rx_line (to_frames 0 bs) ++ [true] = z :: zs) as (z & zs & Ez) by (destruct (rx_line _); cbn; eauto).
    rewrite Ez. cbn [app]. rewrite outs_cons. cbn [map]. destruct (idle_step T os HT Hos _ z I0) as (O & Sy & It & _).
    rewrite O. specialize (It eq_refl).
    destruct (frames_run T os HT Hos _ (Hg 0) _ zs true It) as (X & Y & Z); [now rewrite Sy, Ez|].
    rewrite outs_app, map_app, X.
    destruct (idle_run T os HT Hos m1 (final (rx_step T os) (fst (rx_step T os (rx_init T os e0) z)) zs) (repeat true m1) true Y)
      as (X' & _).
    { rewrite Z. clear. induction m1; [reflexivity|]. cbn [repeat app] in *. now rewrite <- IHm1. }
    rewrite X'.
    destruct (frames_exp bs 0 (g + k) ltac:(lia)) as (m & Em).
    assert (Eall : (None :: flat_map (exp1 T os) (to_frames 0 bs)) ++ repeat None m =
                   repeat None L ++ map tk (trace (atx_step R) None is')).
    { rewrite F1. cbn [app]. rewrite Em. replace (repeat None L) with (None :: repeat (@None (list bool)) (L - 1 - 0)); [reflexivity|].
      replace L with (S (L - 1 - 0)) at 2 by (unfold L; lia). reflexivity. }
    assert (Len1 : length (rx_line (to_frames 0 bs) ++ [true]) + m1 >= length is).
    { apply (f_equal (@length bool)) in F2. rewrite map_length, trace_length in F2.
      rewrite (frames_line bs 0 (g + k)) in F2 by (unfold k; lia). cbn [repeat app] in F2. fold m0 in F2.
      rewrite Em0 in F2. unfold is' in F2. rewrite !app_length, !repeat_length in F2. rewrite app_length. cbn [length]. lia. }
    assert (Len2 : length (None :: flat_map (exp1 T os) (to_frames 0 bs)) + m1 >= length is).
    { apply (f_equal (@length (option (list bool)))) in X. rewrite map_length, outs_length in X. cbn [length]. rewrite <- X.
      rewrite Ez in Len1. cbn [length] in Len1. lia. }
    change (None :: flat_map (exp1 T os) (to_frames 0 bs) ++ repeat None m1) with
      ((None :: flat_map (exp1 T os) (to_frames 0 bs)) ++ repeat None m1).
    rewrite (pad_eq None _ _ _ m1 (length is) Eall) by (rewrite ?app_length, ?map_length, ?trace_length; unfold is'; rewrite ?app_length; lia).
    rewrite G1, !firstn_app. f_equal.
    rewrite firstn_firstn. f_equal. lia.
  Qed.
End Loop.

(** * an executable form of the receiver: the timers as counters *)
Definition cnt1 (p c : nat) (en rst : bool) : nat * bool :=
  if rst then (0, false) else ((if en then (c + 1) mod p else c), en && ((c + 1) mod p =? 0)).
Record rx2_st := mk_rx2 { x_en : bool; x_first : bool; x_data : list bool; x_sync : bool; x_1 : nat; x_2 : nat; x_3 : nat; x_cntr : nat }.
Definition rx2_step (T os : nat) (s : rx2_st) (rxd_in : bool) : rx2_st * rx_out :=
  let '(t1', sample_tick) := cnt1 T (x_1 s) (x_en s) (negb (x_en s)) in
  let '(t2', rxd_vld) := cnt1 os (x_2 s) sample_tick (negb (x_en s)) in
  let rxd := os / 2 - 1 <? x_cntr s in
  let cntr' := if rxd_vld then 0 else if sample_tick && x_sync s then winc (log2ceil os + 1) (x_cntr s) else x_cntr s in
  let '(t3', is_last) := cnt1 10 (x_3 s) rxd_vld (negb (x_en s)) in
  let not_start := x_first s && rxd_vld && rxd in
  let en' := if x_en s then (if rxd_vld then (if not_start then false else negb is_last) else x_en s)
             else if negb (x_sync s) then true else x_en s in
  let first' := if x_en s && rxd_vld then (if not_start then true else is_last) else x_first s in
  let data' := if x_en s && rxd_vld then tl (x_data s) ++ [rxd] else x_data s in
  (mk_rx2 en' first' data' rxd_in t1' t2' t3' cntr',
   mk_rxo (is_last && negb (hd false (x_data s)) && rxd) (tl (x_data s))).

Lemma cnt1_run p h e : 1 <= p -> let c := enabled_since h mod p in
  fst (timer1 p (TT [p] h) e false) = TT [p] (h ++ [(e, false)]) /\
  enabled_since (h ++ [(e, false)]) mod p = fst (cnt1 p c e false) /\
  snd (timer1 p (TT [p] h) e false) = snd (cnt1 p c e false).
Proof.
  intros Hp. cbv zeta. rewrite (timer1_run p h e Hp). unfold cnt1. cbn [fst snd]. split; [reflexivity|]. rewrite enabled_en.
  rewrite Nat.add_mod_idemp_l by lia. split; [|reflexivity]. destruct e; reflexivity.
Qed.

Section Exec.
  Variables T os : nat.
  Hypothesis HT : 1 <= T.
  Hypothesis Hos : 1 <= os.
  Definition rep2 (s : rx_st) (x : rx2_st) : Prop :=
    rx_en s = x_en x /\ rx_first s = x_first x /\ rx_data s = x_data x /\ rx_sync s = x_sync x /\ rx_cntr s = x_cntr x /\
    exists h1 h2 h3, rx_timers T os s h1 h2 h3 /\ x_1 x = enabled_since h1 mod T /\ x_2 x = enabled_since h2 mod os /\
                     x_3 x = enabled_since h3 mod 10.
  Lemma rep2_step s x i : rep2 s x ->
    snd (rx_step T os s i) = snd (rx2_step T os x i) /\ rep2 (fst (rx_step T os s i)) (fst (rx2_step T os x i)).
  Proof.
    intros (E1 & E2 & E3 & E4 & E5 & h1 & h2 & h3 & (T1 & T2 & T3) & C1 & C2 & C3).
    unfold rx_step, rx2_step. rewrite T1, T2, T3, E1, E2, E3, E4, E5. destruct (x_en x) eqn:En; cbn [negb].
    - destruct (cnt1_run T h1 true HT) as (A1 & A2 & A3). rewrite <- C1 in A2, A3.
      destruct (timer1 T (TT [T] h1) true false) as [t1' st] eqn:B1. destruct (cnt1 T (x_1 x) true false) as [y1 st2] eqn:D1.
      cbn [fst snd] in A1, A2, A3. subst st2.
      destruct (cnt1_run os h2 st Hos) as (A1' & A2' & A3'). rewrite <- C2 in A2', A3'.
      destruct (timer1 os (TT [os] h2) st false) as [t2' v] eqn:B2. destruct (cnt1 os (x_2 x) st false) as [y2 v2] eqn:D2.
      cbn [fst snd] in A1', A2', A3'. subst v2.
      destruct (cnt1_run 10 h3 v ltac:(lia)) as (A1'' & A2'' & A3''). rewrite <- C3 in A2'', A3''.
      destruct (timer1 10 (TT [10] h3) v false) as [t3' l] eqn:B3. destruct (cnt1 10 (x_3 x) v false) as [y3 l2] eqn:D3.
      cbn [fst snd] in A1'', A2'', A3''. subst l2. cbn [fst snd]. split; [reflexivity|].
      repeat split; cbn [rx_en x_en]; auto. do 3 eexists. repeat split; cbn; eauto.
    - rewrite timer1_rst, timer1_rst, timer1_rst. cbn [cnt1 andb fst snd]. split; [reflexivity|].
      repeat split; auto. do 3 eexists. repeat split; cbn; try reflexivity; rewrite enabled_rst; symmetry; first [reflexivity | apply Nat.mod_0_l; lia].
  Qed.
  Definition rx2_init d0 := mk_rx2 false true d0 true 0 0 0 0.
  Lemma rx2_outs d0 xs : outs (rx_step T os) (rx_init T os d0) xs = outs (rx2_step T os) (rx2_init d0) xs.
  Proof.
    assert (H : rep2 (rx_init T os d0) (rx2_init d0)).
    { repeat split. exists [], [], []. repeat split; symmetry; apply Nat.mod_0_l; lia. }
    revert H. generalize (rx_init T os d0) (rx2_init d0).
    induction xs as [|x xs IH]; intros s y H; [reflexivity|]. rewrite !outs_cons. destruct (rep2_step s y x H) as [A B].
    rewrite A. f_equal. now apply IH.
  Qed.
End Exec.

Lemma loop_exec R T os d0 e0 is : 1 <= R -> 1 <= T -> 1 <= os -> Forall (fun i => length (txi_data i) = 8) is ->
  map snd (outs (loop_step R T os) (tx_init R d0, rx_init T os e0) is) =
  outs (rx2_step T os) (rx2_init e0) (map txo_txd (outs (atx_step R) None is)).
Proof.
  intros HR HT Hos H8. rewrite <- (tx_outs R HR d0 is H8), <- (rx2_outs T os HT Hos).
  generalize (tx_init R d0) (rx_init T os e0). clear. induction is as [|i is IH]; intros st rx; [reflexivity|].
  rewrite !outs_cons. cbn [map]. rewrite outs_cons.
  destruct (tx_step R st i) as [st' o] eqn:E1. cbn [fst snd]. destruct (rx_step T os rx (txo_txd o)) as [rx' p] eqn:E2.
  assert (E : loop_step R T os (st, rx) i = ((st', rx'), (o, p))) by (unfold loop_step; cbn [fst snd]; now rewrite E1, E2).
  rewrite E. cbn [fst snd]. now rewrite IH.
Qed.

Definition bt (n : nat) : list bool := map (fun k => Nat.testbit n k) (seq 0 8).
Definition one_byte R : list tx_in := map (fun n => mk_txi (n =? 0) (bt 1)) (seq 0 (12 * R)).
Lemma one_byte_8 R : Forall (fun i => length (txi_data i) = 8) (one_byte R).
Proof. apply Forall_forall. intros i Hi. apply in_map_iff in Hi. destruct Hi as (n & <- & _). reflexivity. Qed.

Lemma loop_wrong : exists R os k d0 e0 is b b' n,
  os = 2 ^ k /\ 8 <= os /\ os <= R /\ length d0 = 10 /\ length e0 = 9 /\ length b = 8 /\
  Forall (fun i => txi_data i = b) is /\
  nth_error (map (fun o => given (snd o)) (outs (loop_step R (R / os) os) (tx_init R d0, rx_init (R / os) os e0) is)) n = Some (Some b') /\
  b' <> b.
Proof.
  exists 31, 16, 4, (repeat false 10), (repeat false 9), (one_byte 31), (bt 1), (bt 192), 354.
  split; [reflexivity|]. split; [lia|]. split; [lia|]. split; [reflexivity|]. split; [reflexivity|]. split; [reflexivity|].
  split; [|split].
  - apply Forall_forall. intros i Hi. apply in_map_iff in Hi. destruct Hi as (n & <- & _). reflexivity.
  - rewrite <- (map_map snd given), loop_exec; [|lia|cbn; lia|lia|apply one_byte_8]. vm_compute. reflexivity.
  - discriminate.
Qed.
