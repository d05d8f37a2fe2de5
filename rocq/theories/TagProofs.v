From Verif Require Import Base BaseFacts RamModel RamProofs OneHotModel OneHotProofs TagModel TagSpec.

(** ** lists *)
Lemma nth_error_combine {A B} (l : list A) (m : list B) k :
  nth_error (combine l m) k = match nth_error l k, nth_error m k with Some a, Some b => Some (a, b) | _, _ => None end.
Proof.
  revert m k. induction l as [|a l IH]; intros [|b m] [|k]; cbn; try reflexivity.
  - destruct (nth_error l k); reflexivity.
  - apply IH.
Qed.
Lemma nth_flat_repeat (f : nat -> bool) R n : forall s w b, w < n -> b < R -> nth (w * R + b) (flat_map (fun w => repeat (f w) R) (seq s n)) false = f (s + w).
Proof.
  induction n as [|n IH]; intros s w b Hw Hb; [lia|]. cbn [seq flat_map]. destruct w as [|w].
  - rewrite app_nth1 by (rewrite repeat_length; lia). cbn [Nat.mul Nat.add]. rewrite Nat.add_0_r. clear -Hb. revert b Hb. induction R as [|R IHR]; intros b Hb; [lia|]. destruct b; [reflexivity|]. cbn. apply IHR. lia.
  - rewrite app_nth2 by (rewrite repeat_length; lia). rewrite repeat_length. replace (S w * R + b - R) with (w * R + b) by lia.
    rewrite IH by lia. f_equal. lia.
Qed.
Lemma testbit_eq n a b : a < 2 ^ n -> b < 2 ^ n -> (forall j, j < n -> Nat.testbit a j = Nat.testbit b j) -> a = b.
Proof.
  intros Ha Hb H. apply Nat.bits_inj. intros j. destruct (Nat.lt_ge_cases j n) as [L|L]; [apply H; exact L|].
  assert (forall x, x < 2 ^ n -> Nat.testbit x j = false) as Z.
  { intros x Hx. destruct (Nat.eq_dec x 0) as [->|Nz]; [apply Nat.bits_0|]. apply Nat.bits_above_log2.
    apply Nat.log2_lt_pow2; [lia|]. apply (Nat.lt_le_trans _ (2 ^ n)); [exact Hx|]. apply Nat.pow_le_mono_r; lia. }
  rewrite !Z by assumption. reflexivity.
Qed.

  Lemma first_min (f : nat -> bool) n : 0 < n -> existsb (fun b => b) (map f (seq 0 n)) = true ->
    exists w, onehot_to_bin (map f (seq 0 n)) = Some w /\ w < n /\ f w = true /\ forall w', w' < w -> f w' = false.
  Proof.
    intros Hn H.
    assert (forall n s, existsb (fun b => b) (map f (seq s n)) = true -> exists w, w < n /\ f (s + w) = true /\ forall w', w' < w -> f (s + w') = false) as F.
    { clear. induction n as [|n IH]; intros s; cbn [seq map existsb]; [discriminate|]. destruct (f s) eqn:F; cbn [orb].
      - intros _. exists 0. rewrite Nat.add_0_r. repeat split; [lia|exact F|lia].
      - intros H. destruct (IH (S s) H) as (w & W1 & W2 & W3). exists (S w). split; [lia|]. rewrite <- Nat.add_succ_comm. split; [exact W2|].
        intros [|w'] Hw'; [rewrite Nat.add_0_r; exact F|]. rewrite <- Nat.add_succ_comm. apply W3. lia. }
    destruct (F n 0 H) as (w & W1 & W2 & W3). cbn [Nat.add] in *. exists w. split; [|auto].
    rewrite onehot_to_bin_eq by (destruct n; [lia|discriminate]). f_equal.
    assert (forall j, j < n -> nth_error (map f (seq 0 n)) j = Some (f j)) as G.
    { intros j Hj. rewrite nth_error_map. rewrite (nth_error_nth' _ 0) by (rewrite seq_length; exact Hj). rewrite seq_nth by exact Hj. reflexivity. }
    apply first_set_spec; [rewrite G by exact W1; rewrite W2; reflexivity|]. intros j Hj. rewrite G by lia. rewrite W3 by exact Hj. reflexivity.
  Qed.
  Lemma nth_error_tl {A} (l : list A) k : nth_error (tl l) k = nth_error l (S k).
  Proof. destruct l; [destruct k; reflexivity|reflexivity]. Qed.

Section Dir.
  Context (c : tcfg).
  Lemma holds_nil m i w t : holds c m [] i w t <-> stored c m i w t.
  Proof.
    unfold holds. split.
    - intros [[H _]|(a & u & b & E & _)]; [exact H|]. destruct a; discriminate.
    - intros H. left. split; [exact H|]. intros u [].
  Qed.
  Lemma holds_snoc m us u i w t :
    holds c m (us ++ [u]) i w t <->
    (touches c u i w /\ u_del u = false /\ tag_of c (u_addr u) = t) \/ (~ touches c u i w /\ holds c m us i w t).
  Proof.
    unfold holds. split.
    - intros [[H N]|(a & v & b & E & T & D & G & N)].
      + right. split; [apply N, in_or_app; right; left; reflexivity|]. left. split; [exact H|]. intros x Hx. apply N, in_or_app. left. exact Hx.
      + destruct b as [|b0 b] using rev_ind.
        * apply app_inj_tail in E. destruct E as [-> ->]. left. auto.
        * clear IHb. rewrite app_comm_cons, app_assoc in E. apply app_inj_tail in E. destruct E as [-> ->].
          right. split; [apply N, in_or_app; right; left; reflexivity|]. right. exists a, v, b. split; [auto|]. split; [exact T|]. split; [exact D|]. split; [exact G|].
          intros x Hx. apply N, in_or_app. left. exact Hx.
    - intros [(T & D & G)|[NT [[H N]|(a & v & b & -> & T & D & G & N)]]].
      + right. exists us, u, []. split; [reflexivity|]. split; [exact T|]. split; [exact D|]. split; [exact G|]. intros x [].
      + left. split; [exact H|]. intros x Hx. apply in_app_or in Hx. destruct Hx as [Hx|[<-|[]]]; auto.
      + right. exists a, v, (b ++ [u]). split; [rewrite <- app_assoc; reflexivity|]. split; [exact T|]. split; [exact D|]. split; [exact G|].
        intros x Hx. apply in_app_or in Hx. destruct Hx as [Hx|[<-|[]]]; auto.
  Qed.

  Context (Hc : cfg_ok c = true).
  Lemma tagw : 1 <= TAG_W c.
  Proof. unfold cfg_ok in Hc. rewrite !andb_true_iff, Nat.leb_le in Hc. tauto. Qed.
  Lemma ways : 2 <= WAY_CNT c.
  Proof. unfold cfg_ok in Hc. rewrite !andb_true_iff, !Nat.leb_le in Hc. tauto. Qed.
  Lemma tag_lt a : a < 2 ^ ADDR_WIDTH c -> tag_of c a < 2 ^ TAG_W c.
  Proof.
    intros H. unfold tag_of. apply Nat.div_lt_upper_bound; [apply Nat.pow_nonzero; lia|]. rewrite <- Nat.pow_add_r.
    replace (INDEX_W c + OFFSET_W c + TAG_W c) with (ADDR_WIDTH c); [exact H|]. pose proof tagw. unfold TAG_W in *. lia.
  Qed.
  Lemma rec_b j : j <= TAG_W c -> j / 8 < REC_B c.
  Proof. intros H. unfold REC_B. destruct (Nat.eqb_spec ((TAG_W c + 1) mod 8) 0); lia. Qed.

  (** ** the memory *)
  Lemma mem_reads n (rest : list (port_in (nat -> bool))) m a b :
    mem_next (repeat (mk_pc true false true) n) rest m a b = m a b.
  Proof.
    unfold mem_next. revert n. induction rest as [|p ps IH]; intros [|n]; cbn [repeat combine fold_left]; try reflexivity.
    unfold byte_we at 2. cbn [fst snd hasW]. rewrite !andb_false_r. cbn [andb]. apply IH.
  Qed.
  Lemma mem_step n pad u rest m a b :
    mem_next (mem_ports n) (write_port c pad u :: rest) m a b =
    if u_vld u && nth b (flat_map (fun w => repeat (nth w (u_way u) false) (REC_B c)) (seq 0 (WAY_CNT c))) false && (index_of c (u_addr u) =? a)
    then (fun k => rec_bit c pad u (8 * (b mod REC_B c) + k)) else m a b.
  Proof.
    unfold mem_ports, mem_next. cbn [combine fold_left fst snd].
    pose proof (mem_reads n rest (fun a' b' => if byte_we (mk_pc false true true) (write_port c pad u) b && (p_addr (write_port c pad u) =? a)
        then p_din (write_port c pad u) b else m a b) a b) as R. unfold mem_next in R. rewrite R.
    unfold byte_we. cbn [write_port p_en p_we p_addr p_din hasW hasBE]. rewrite andb_true_r. reflexivity.
  Qed.
  Lemma touch_dec u i w : {touches c u i w} + {~ touches c u i w}.
  Proof.
    unfold touches. destruct (u_vld u), (Nat.eq_dec (index_of c (u_addr u)) i), (nth w (u_way u) false);
      (left; repeat split; (assumption || reflexivity)) || (right; intros (A & B & C); congruence).
  Qed.
  Lemma bit_step n pad u rest m i w j : w < WAY_CNT c -> j <= TAG_W c ->
    (touches c u i w -> word_bit c (mem_next (mem_ports n) (write_port c pad u :: rest) m i) w j = rec_bit c pad u j) /\
    (~ touches c u i w -> word_bit c (mem_next (mem_ports n) (write_port c pad u :: rest) m i) w j = word_bit c (m i) w j).
  Proof.
    intros Hw Hj. unfold word_bit. rewrite mem_step. rewrite nth_flat_repeat by (auto using rec_b). cbn [Nat.add].
    pose proof (rec_b j Hj) as Hr.
    replace ((w * REC_B c + j / 8) mod REC_B c) with (j / 8) by (rewrite Nat.add_comm, Nat.mod_add, Nat.mod_small; lia).
    unfold touches. split.
    - intros (A & B & C). rewrite A, C, B, Nat.eqb_refl. cbn [andb]. f_equal. lia.
    - intros NT. destruct (u_vld u) eqn:A; [|reflexivity]. destruct (nth w (u_way u) false) eqn:C; [|reflexivity].
      destruct (Nat.eqb_spec (index_of c (u_addr u)) i) as [B|B]; [|reflexivity]. exfalso. apply NT. auto.
  Qed.

  (** the memory holds the directory after updates [us] *)
  Definition enc (m0 M : memory (nat -> bool)) (us : list upd_in) : Prop :=
    forall i w t, w < WAY_CNT c -> t < 2 ^ TAG_W c -> (stored c M i w t <-> holds c m0 us i w t).
  Lemma enc_init m0 : enc m0 m0 [].
  Proof. intros i w t _ _. symmetry. apply holds_nil. Qed.
  Lemma enc_step m0 M us n pad u rest : u_addr u < 2 ^ ADDR_WIDTH c -> enc m0 M us ->
    enc m0 (mem_next (mem_ports n) (write_port c pad u :: rest) M) (us ++ [u]).
  Proof.
    intros Hu E i w t Hw Ht. rewrite holds_snoc. pose proof (E i w t Hw Ht) as E1.
    set (M' := mem_next (mem_ports n) (write_port c pad u :: rest) M) in *.
    assert (forall j, j <= TAG_W c -> (touches c u i w -> word_bit c (M' i) w j = rec_bit c pad u j) /\
       (~ touches c u i w -> word_bit c (M' i) w j = word_bit c (M i) w j)) as B by (intros j Hj; apply bit_step; assumption).
    clearbody M'. unfold stored in *. fold (word_bit c (M' i) w) in *. fold (word_bit c (M i) w) in *.
    change ((fun j => M' i (w * REC_B c + j / 8) (j mod 8))) with (word_bit c (M' i) w) in *.
    destruct (touch_dec u i w) as [T|T].
    - split.
      + intros [V G]. left. split; [exact T|]. change (word_bit c (M' i) w (TAG_W c) = true) in V.
        rewrite (proj1 (B (TAG_W c) (le_n _)) T) in V. unfold rec_bit in V. rewrite Nat.ltb_irrefl, Nat.eqb_refl in V.
        split; [apply negb_true_iff; exact V|]. apply (testbit_eq (TAG_W c)); [apply tag_lt; exact Hu|exact Ht|].
        intros j Hj. specialize (G j Hj). change (word_bit c (M' i) w j = Nat.testbit t j) in G.
        rewrite (proj1 (B j (Nat.lt_le_incl _ _ Hj)) T) in G. unfold rec_bit in G. apply Nat.ltb_lt in Hj. rewrite Hj in G. exact G.
      + intros [(_ & D & <-)|[NT _]]; [|contradiction]. split.
        * change (word_bit c (M' i) w (TAG_W c) = true). rewrite (proj1 (B (TAG_W c) (le_n _)) T). unfold rec_bit.
          rewrite Nat.ltb_irrefl, Nat.eqb_refl, D. reflexivity.
        * intros j Hj. change (word_bit c (M' i) w j = Nat.testbit (tag_of c (u_addr u)) j).
          rewrite (proj1 (B j (Nat.lt_le_incl _ _ Hj)) T). unfold rec_bit. apply Nat.ltb_lt in Hj. rewrite Hj. reflexivity.
    - assert (((word_bit c (M' i) w (TAG_W c) = true) /\ (forall j, j < TAG_W c -> word_bit c (M' i) w j = Nat.testbit t j)) <->
              ((word_bit c (M i) w (TAG_W c) = true) /\ (forall j, j < TAG_W c -> word_bit c (M i) w j = Nat.testbit t j))) as S.
      { rewrite (proj2 (B (TAG_W c) (le_n _)) T). split; (intros [V G]; split; [exact V|]; intros j Hj; specialize (G j Hj)).
        - rewrite <- (proj2 (B j (Nat.lt_le_incl _ _ Hj)) T). exact G.
        - rewrite (proj2 (B j (Nat.lt_le_incl _ _ Hj)) T). exact G. }
      etransitivity; [exact S|]. etransitivity; [exact E1|]. split.
      + intros H. right. split; assumption.
      + intros [[T' _]|[_ H]]; [contradiction|exact H].
  Qed.

  (** t.valid & t.tag._eq *)
  Lemma match_stored (M : memory (nat -> bool)) i w t : t_valid c (M i) w && t_eq c (M i) w t = true <-> stored c M i w t.
  Proof.
    unfold t_valid, t_eq, stored. rewrite andb_true_iff, forallb_forall. apply and_iff_compat_l. split.
    - intros H j Hj. apply eqb_prop. apply (H j). apply in_seq. lia.
    - intros H j Hj. apply in_seq in Hj. apply eqb_true_iff. apply H. lia.
  Qed.
  Lemma found_spec m0 M us u (I : Type) (r : lk_reg I) w : enc m0 M us -> w < WAY_CNT c -> t_addr r < 2 ^ ADDR_WIDTH c ->
    (found_way c (M (index_of c (t_addr r))) u r w = true <-> holds c m0 (us ++ [u]) (index_of c (t_addr r)) w (tag_of c (t_addr r))).
  Proof.
    intros E Hw Ha. rewrite holds_snoc. rewrite <- (E _ w _ Hw (tag_lt _ Ha)). rewrite <- match_stored.
    unfold found_way, just_updated, touches.
    destruct (t_valid c (M (index_of c (t_addr r))) w && t_eq c (M (index_of c (t_addr r))) w (tag_of c (t_addr r)));
    destruct (u_vld u), (Nat.eqb_spec (index_of c (t_addr r)) (index_of c (u_addr u))) as [e|n],
      (nth w (u_way u) false), (u_del u), (Nat.eqb_spec (tag_of c (t_addr r)) (tag_of c (u_addr u))) as [e'|n']; cbn [andb orb negb];
      intuition (try congruence); exfalso; auto.
  Qed.

  (** ** invariant *)
  Context {I : Type} (pad : nat -> bool) (und : nat -> nat -> bool) (m0 : memory (nat -> bool)) (N : nat).
  Definition in_ok (i : upd_in * list (lk_in I)) : Prop :=
    length (snd i) = N /\ u_addr (fst i) < 2 ^ ADDR_WIDTH c /\ Forall (fun l => l_addr l < 2 ^ ADDR_WIDTH c) (snd i).
  Definition inv (s : tag_state I) (us : list upd_in) : Prop :=
    enc m0 (fst (ts_ram s)) us /\ length (ts_lk s) = N /\ length (snd (ts_ram s)) = S N /\
    forall k r, nth_error (ts_lk s) k = Some r -> t_vld r = true ->
      t_addr r < 2 ^ ADDR_WIDTH c /\
      exists us' M, us = us' ++ [ts_upd s] /\ enc m0 M us' /\ nth_error (tl (snd (ts_ram s))) k = Some (Some (M (index_of c (t_addr r)))).

  Lemma inv_step s us i : in_ok i -> inv s us -> inv (fst (tag_step c pad und s i)) (us ++ [fst i]).
  Proof.
    intros (Ln & Hu & Hl) (E & L1 & L2 & P). unfold tag_step. cbn [fst]. unfold inv. cbn [ts_ram ts_lk ts_upd].
    set (ps := write_port c pad (fst i) :: _).
    assert (length ps = S N) as Lp by (unfold ps; cbn [length]; rewrite map_length, combine_length; lia).
    split; [cbn [ram_step fst]; unfold ps; apply enc_step; assumption|].
    split; [rewrite map_length, combine_length; lia|]. split.
    { cbn [ram_step fst snd]. rewrite map_length, !combine_length. unfold mem_ports. cbn [length]. rewrite repeat_length. lia. }
    intros k r' Hr V. rewrite nth_error_map, nth_error_combine in Hr.
    destruct (nth_error (ts_lk s) k) as [r|] eqn:Er; [|discriminate]. destruct (nth_error (snd i) k) as [l|] eqn:El; [|discriminate].
    cbn [option_map fst snd] in Hr. injection Hr as <-.
    assert (l_addr l < 2 ^ ADDR_WIDTH c) as Hla by (rewrite Forall_forall in Hl; apply Hl; eapply nth_error_In; exact El).
    assert (k < N) as Hk by (rewrite <- L1; apply nth_error_Some; congruence).
    assert (t_addr (lk_next r l) < 2 ^ ADDR_WIDTH c) as Ha.
    { unfold lk_next in *. cbn [t_addr t_vld] in *. destruct (t_vld r) eqn:Tv; cbn [negb orb] in *; [|exact Hla].
      destruct (l_rrd l); [exact Hla|]. apply (P k r Er Tv). }
    split; [exact Ha|]. exists us, (fst (ts_ram s)). split; [reflexivity|]. split; [exact E|].
    rewrite nth_error_tl.
    assert (exists d, nth_error (snd (ts_ram s)) (S k) = Some d) as [d Ed].
    { destruct (nth_error (snd (ts_ram s)) (S k)) eqn:Q; [eexists; reflexivity|]. apply nth_error_None in Q. lia. }
    rewrite (dout_nth _ (ts_ram s) ps (S k) (mk_pc true false true) (read_port c r l) d); [| | |exact Ed].
    - unfold dout_next. cbn [hasR hasW]. unfold lk_next in *. cbn [t_vld t_addr] in *. unfold read_port. cbn [p_en p_addr].
      rewrite V. f_equal. f_equal. f_equal.
      destruct (t_vld r), (l_rrd l); cbn [negb orb andb]; reflexivity.
    - unfold mem_ports. cbn [nth_error]. rewrite L1. apply nth_error_repeat. exact Hk.
    - unfold ps. cbn [nth_error]. rewrite nth_error_map, nth_error_combine, Er, El. reflexivity.
  Qed.
  Lemma inv_run u rs is : length rs = N -> Forall in_ok is ->
    inv (final (tag_step c pad und) (tag_init m0 u rs) is) (map fst is).
  Proof.
    intros L. induction is as [|i is IH] using rev_ind; intros H.
    - unfold final, run, fst. unfold inv, tag_init. cbn [ts_ram ts_lk ts_upd ram_init fst snd map]. split; [apply enc_init|].
      split; [rewrite map_length; exact L|]. split; [rewrite map_length; unfold mem_ports; cbn [length]; rewrite repeat_length; lia|].
      intros k r Hr V. rewrite nth_error_map in Hr. destruct (nth_error rs k); [|discriminate]. injection Hr as <-. discriminate.
    - apply Forall_app in H. destruct H as [H1 H2]. rewrite final_snoc, map_app. apply inv_step; [inversion H2; assumption|]. apply IH. exact H1.
  Qed.

  Lemma out_port (s : tag_state I) i k o : nth_error (snd (tag_step c pad und s i)) k = Some o ->
    exists r l d, nth_error (ts_lk s) k = Some r /\ nth_error (snd i) k = Some l /\ nth_error (tl (snd (ts_ram s))) k = Some d /\
      o = lk_outs c und (ts_upd s) r d l.
  Proof.
    unfold tag_step. cbn [snd]. rewrite nth_error_map, !nth_error_combine.
    destruct (nth_error (ts_lk s) k) as [r|]; [|discriminate]. destruct (nth_error (snd i) k) as [l|]; [|discriminate].
    destruct (nth_error (tl (snd (ts_ram s))) k) as [d|]; [|discriminate]. cbn [option_map fst snd]. intros H. injection H as <-.
    exists r, l, d. auto.
  Qed.

End Dir.

Lemma tag_lookup : forall (I : Type) c, cfg_ok c = true -> forall pad und m u (rs : list (lk_reg I)) is i k o,
  Forall (fun x => length (snd x) = length rs /\ u_addr (fst x) < 2 ^ ADDR_WIDTH c /\ Forall (fun l => l_addr l < 2 ^ ADDR_WIDTH c) (snd x)) is ->
  nth_error (snd (tag_step c pad und (final (tag_step c pad und) (tag_init m u rs) is) i)) k = Some o -> o_vld o = true ->
  (o_found o = true <-> exists w, present c m (map fst is) (o_addr o) w) /\
  (o_found o = true -> exists w, o_way o = Some w /\ present c m (map fst is) (o_addr o) w /\
     forall w', w' < w -> ~ present c m (map fst is) (o_addr o) w').
Proof.
  intros I c Hc pad und m u rs is i k o Hi Ho Hv.
  destruct (inv_run c Hc pad und m (length rs) u rs is eq_refl Hi) as (_ & _ & _ & P).
  set (s := final _ _ is) in *. destruct (out_port c pad und s i k o Ho) as (r & l & d & Er & El & Ed & ->).
  cbn [lk_outs o_vld o_found o_way o_addr] in *. destruct (P k r Er Hv) as (Ha & us' & M & Eu & En & Ed').
  rewrite Ed' in Ed. injection Ed as <-. rewrite Eu.
  assert (forall w, w < WAY_CNT c -> (found_way c (M (index_of c (t_addr r))) (ts_upd s) r w = true <->
     present c m (us' ++ [ts_upd s]) (t_addr r) w)) as F.
  { intros w Hw. unfold present. rewrite (found_spec c Hc m M us' (ts_upd s) I r w En Hw Ha). tauto. }
  pose proof (ways c Hc) as W. split.
  - split.
    + intros H. apply existsb_exists in H. destruct H as (x & Hx & ->). apply in_map_iff in Hx. destruct Hx as (w & Hw & Hs).
      apply in_seq in Hs. exists w. apply F; [lia|exact Hw].
    + intros (w & Hw). apply existsb_exists. exists true. split; [|reflexivity]. apply in_map_iff. exists w.
      pose proof (proj1 Hw) as Hlt. split; [apply F; assumption|]. apply in_seq. lia.
  - intros H. destruct (first_min _ (WAY_CNT c) ltac:(lia) H) as (w & W1 & W2 & W3 & W4). exists w. split; [exact W1|].
    split; [apply F; assumption|]. intros w' Hw' Hp. pose proof (proj1 Hp) as Hlt. apply F in Hp; [|exact Hlt]. rewrite W4 in Hp by exact Hw'. discriminate.
Qed.

(** tags of the result *)
Lemma tag_tags : forall (I : Type) c, cfg_ok c = true -> forall pad und m u (rs : list (lk_reg I)) is i k o,
  Forall (fun x => length (snd x) = length rs /\ u_addr (fst x) < 2 ^ ADDR_WIDTH c /\ Forall (fun l => l_addr l < 2 ^ ADDR_WIDTH c) (snd x)) is ->
  nth_error (snd (tag_step c pad und (final (tag_step c pad und) (tag_init m u rs) is) i)) k = Some o -> o_vld o = true ->
  (forall is' x, is = is' ++ [x] -> u_vld (fst x) = true -> index_of c (u_addr (fst x)) <> index_of c (o_addr o)) ->
  forall w t, w < WAY_CNT c -> t < 2 ^ TAG_W c ->
  (nth_error (o_tags o) w = Some (true, map (Nat.testbit t) (seq 0 (TAG_W c))) <-> holds c m (map fst is) (index_of c (o_addr o)) w t).
Proof.
  intros I c Hc pad und m u rs is i k o Hi Ho Hv Hq w t Hw Ht.
  destruct (inv_run c Hc pad und m (length rs) u rs is eq_refl Hi) as (_ & _ & _ & P).
  set (s := final _ _ is) in *. destruct (out_port c pad und s i k o Ho) as (r & l & d & Er & El & Ed & ->).
  cbn [lk_outs o_vld o_found o_way o_addr o_tags] in *. destruct (P k r Er Hv) as (Ha & us' & M & Eu & En & Ed').
  rewrite Ed' in Ed. injection Ed as <-. rewrite Eu. rewrite holds_snoc, <- (En _ w t Hw Ht).
  assert (~ touches c (ts_upd s) (index_of c (t_addr r)) w) as NT.
  { destruct is as [|x is _] using rev_ind; [destruct us'; discriminate|]. rewrite map_app in Eu. cbn [map] in Eu.
    apply app_inj_tail in Eu. destruct Eu as [_ <-]. intros (T1 & T2 & _). exact (Hq is x eq_refl T1 T2). }
  rewrite nth_error_map. rewrite (nth_error_nth' _ 0) by (rewrite seq_length; exact Hw). rewrite seq_nth by exact Hw. cbn [Nat.add option_map].
  assert ((t_valid c (M (index_of c (t_addr r))) w, t_tag c (M (index_of c (t_addr r))) w) = (true, map (Nat.testbit t) (seq 0 (TAG_W c)))
          <-> stored c M (index_of c (t_addr r)) w t) as Q.
  { unfold stored. fold (word_bit c (M (index_of c (t_addr r))) w). unfold t_valid, t_tag. split.
    - intros H. injection H as H1 H2. split; [exact H1|]. intros j Hj.
      apply (f_equal (fun l => nth_error l j)) in H2. rewrite !nth_error_map in H2. rewrite (nth_error_nth' (seq 0 (TAG_W c)) 0) in H2 by (rewrite seq_length; exact Hj).
      rewrite seq_nth in H2 by exact Hj. injection H2 as H2. exact H2.
    - intros [H1 H2]. f_equal; [exact H1|]. apply map_ext_in. intros j Hj. apply in_seq in Hj. apply H2. lia. }
  rewrite <- Q. split.
  - intros H. injection H as H1 H2. right. split; [exact NT|]. f_equal; assumption.
  - intros [[T _]|[_ H]]; [contradiction|]. rewrite H. reflexivity.
Qed.

(** order of requests and answers *)
Lemma port_trace_snoc {I} k t (x : (upd_in * list (lk_in I)) * list (lk_out I)) l o :
  nth_error (snd (fst x)) k = Some l -> nth_error (snd x) k = Some o -> port_trace k (t ++ [x]) = port_trace k t ++ [(l, o)].
Proof. intros H1 H2. unfold port_trace. rewrite flat_map_app. cbn [flat_map]. rewrite H1, H2. reflexivity. Qed.

Lemma tag_order : forall (I : Type) c, cfg_ok c = true -> forall pad und m u (rs : list (lk_reg I)) is i k o l,
  Forall (fun x => length (snd x) = length rs /\ u_addr (fst x) < 2 ^ ADDR_WIDTH c /\ Forall (fun l => l_addr l < 2 ^ ADDR_WIDTH c) (snd x)) is ->
  nth_error (snd i) k = Some l ->
  nth_error (snd (tag_step c pad und (final (tag_step c pad und) (tag_init m u rs) is) i)) k = Some o ->
  let t := port_trace k (trace (tag_step c pad und) (tag_init m u rs) is) in
  asked t = answered t ++ (if o_vld o then [(o_id o, o_addr o)] else []) /\
  (o_rd o = true <-> o_vld o = false \/ l_rrd l = true).
Proof.
  intros I c Hc pad und m u rs is i k o l Hi Hl Ho. cbv zeta.
  destruct (out_port c pad und _ i k o Ho) as (r & l' & d & Er & El & Ed & ->). rewrite Hl in El. injection El as <-.
  cbn [lk_outs o_vld o_id o_addr o_rd]. split; [|destruct (t_vld r), (l_rrd l); cbn; intuition congruence].
  clear Ho Hl i l d Ed. revert r Er. induction is as [|i is IH] using rev_ind; intros r Er.
  - cbn in Er. rewrite nth_error_map in Er. destruct (nth_error rs k); [|discriminate]. injection Er as <-. reflexivity.
  - apply Forall_app in Hi. destruct Hi as [Hi1 Hi2]. inversion Hi2 as [|x xs Hx _ Q]; subst x xs. clear Hi2.
    rewrite final_snoc in Er. rewrite trace_snoc.
    destruct (inv_run c Hc pad und m (length rs) u rs is eq_refl Hi1) as (_ & L1 & L2 & _).
    set (s := final (tag_step c pad und) (tag_init m u rs) is) in *.
    unfold tag_step in Er. cbn [fst ts_lk] in Er. rewrite nth_error_map, nth_error_combine in Er.
    destruct (nth_error (ts_lk s) k) as [r0|] eqn:E0; [|discriminate]. destruct (nth_error (snd i) k) as [l|] eqn:El; [|discriminate].
    cbn [option_map fst snd] in Er. injection Er as <-.
    assert (exists d, nth_error (tl (snd (ts_ram s))) k = Some d) as [d Ed].
    { destruct (nth_error (tl (snd (ts_ram s))) k) eqn:Q; [eexists; reflexivity|]. rewrite nth_error_tl in Q. apply nth_error_None in Q.
      assert (k < length (ts_lk s)) by (apply nth_error_Some; congruence). lia. }
    rewrite (port_trace_snoc k _ _ l (lk_outs c und (ts_upd s) r0 d l)); [|exact El|].
    2:{ cbn [snd]. unfold tag_step. cbn [snd]. rewrite nth_error_map, !nth_error_combine, E0, El, Ed. reflexivity. }
    specialize (IH Hi1 r0 eq_refl). unfold asked, answered, port_cycle in *. rewrite !flat_map_app, IH. cbn [flat_map lk_outs fst snd o_rd o_vld o_id o_addr lk_next t_vld t_id t_addr].
    rewrite !app_nil_r, <- !app_assoc. f_equal.
    destruct (t_vld r0), (l_vld l), (l_rrd l); cbn [negb orb andb app]; reflexivity.
Qed.

Lemma tag_line : forall c a b, (tag_of c a = tag_of c b /\ index_of c a = index_of c b) <-> a / 2 ^ OFFSET_W c = b / 2 ^ OFFSET_W c.
Proof.
  intros c a b. unfold tag_of, index_of. rewrite Nat.add_comm, Nat.pow_add_r.
  pose proof (pow2_pos (OFFSET_W c)) as P. pose proof (pow2_pos (INDEX_W c)) as Q. rewrite <- !Nat.div_div by lia. split.
  - intros [H1 H2]. rewrite (Nat.div_mod (a / 2 ^ OFFSET_W c) (2 ^ INDEX_W c)) by lia. rewrite (Nat.div_mod (b / 2 ^ OFFSET_W c) (2 ^ INDEX_W c)) by lia.
    rewrite H1, H2. reflexivity.
  - intros ->. auto.
Qed.
