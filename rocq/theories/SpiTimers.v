(** the timers of SpiMaster share one counter if the half period is a power of two and the wait takes 1, 2 or 4 periods *)
From Verif Require Import Base BaseFacts AddrModel AddrProofs TimerModel TimerProofs SpiModel.

Lemma pow2b_pow k : pow2b (2 ^ k) = true.
Proof. unfold pow2b. apply isPow2N_spec. exists (N.of_nat k). rewrite Nat2N.inj_pow. reflexivity. Qed.
Lemma log2ceil_pow k : 1 <= k -> log2ceil (2 ^ k) = k.
Proof.
  intros H. unfold log2ceil. destruct (Nat.leb_spec (2 ^ k) 1) as [H1|H1].
  - exfalso. assert (2 ^ 1 <= 2 ^ k) by (apply Nat.pow_le_mono_r; lia). cbn [Nat.pow] in *. lia.
  - apply Nat.log2_up_pow2. lia.
Qed.

Section T3.
  Variables a b c : nat.
  Hypothesis Ha : pow2b a = true.
  Hypothesis Hb : pow2b b = true.
  Hypothesis Hc : pow2b c = true.
  Hypothesis Hab : a mod b = 0.
  Hypothesis Hac : a mod c = 0.
  Lemma resolve3 : let p := resolve_sharing [a; b; c] in p 0 = None /\ p 1 = Some 0 /\ p 2 = Some 0.
  Proof.
    intros p. unfold p, resolve_sharing. cbn [length seq resolve_steps].
    assert (C0 : choose_parent [a; b; c] (fun _ => None) 0 = None). { unfold choose_parent. cbn [nth]. rewrite Ha. reflexivity. }
    rewrite C0.
    assert (C1 : choose_parent [a; b; c] (upd (fun _ => None) 0 None) 1 = Some 0).
    { unfold choose_parent. cbn [nth]. rewrite Hb. cbn [seq find nth]. rewrite Hab. reflexivity. }
    rewrite C1.
    assert (C2 : choose_parent [a; b; c] (upd (upd (fun _ => None) 0 None) 1 (Some 0)) 2 = Some 0).
    { unfold choose_parent. cbn [nth]. rewrite Hc. cbn [seq find nth]. rewrite Hac. reflexivity. }
    rewrite C2. auto.
  Qed.
End T3.
Section T2.
  Variables a b : nat.
  Hypothesis Ha : pow2b a = true.
  Hypothesis Hb : pow2b b = true.
  Hypothesis Hab : a mod b = 0.
  Lemma resolve2 : let p := resolve_sharing [a; b] in p 0 = None /\ p 1 = Some 0.
  Proof.
    intros p. unfold p, resolve_sharing. cbn [length seq resolve_steps].
    assert (C0 : choose_parent [a; b] (fun _ => None) 0 = None). { unfold choose_parent. cbn [nth]. rewrite Ha. reflexivity. }
    rewrite C0.
    assert (C1 : choose_parent [a; b] (upd (fun _ => None) 0 None) 1 = Some 0).
    { unfold choose_parent. cbn [nth]. rewrite Hb. cbn [seq find nth]. rewrite Hab. reflexivity. }
    rewrite C1. auto.
  Qed.
End T2.

(** ticks of a root and of a timer made of its bits *)
Lemma tick_root ms par f c en rst i : par i = None -> tick ms par (S f) c en rst i = (c i =? 0) && en && negb rst.
Proof. intros H. cbn [tick]. rewrite H. reflexivity. Qed.
Lemma tick_bits ms par f c en rst i k : par i = Some 0 -> par 0 = None -> mv ms i < mv ms 0 -> mv ms i = 2 ^ k -> 1 <= k ->
  tick ms par (S (S f)) c en rst i = (c 0 mod 2 ^ k =? 0) && en.
Proof.
  intros H H0 Hl Hk Hk1. cbn [tick]. rewrite H. destruct (Nat.eqb_spec (mv ms 0) (mv ms i)); [lia|]. destruct (Nat.ltb_spec (mv ms 0) (mv ms i)); [lia|].
  cbn [cntr_reg]. rewrite H0, Hk, log2ceil_pow by assumption. reflexivity.
Qed.
Lemma next_root ms par f c en rst : par 0 = None -> c 0 < mv ms 0 ->
  cnt_next ms par f c en rst 0 = if rst || (en && (c 0 =? 0)) then mv ms 0 - 1 else if en then c 0 - 1 else c 0.
Proof.
  intros H Hc. unfold cnt_next, cnt_reload. rewrite H. destruct (rst || (en && (c 0 =? 0))) eqn:E; [reflexivity|].
  destruct en; [|reflexivity]. destruct (Nat.eqb_spec (c 0) 0) as [Z|Z]; [rewrite orb_comm in E; discriminate|].
  apply wdec_pos; [lia|]. pose proof (log2ceil_ge (mv ms 0 - 1 + 1)). lia.
Qed.

Section Family.
  Variables h a : nat.
  Hypothesis Ha : a <= 2.
  Let H := 2 ^ h.
  Let B := 2 ^ (h + a + 1).
  Let E := 2 ^ (h + 4).
  Lemma H_pos : 0 < H. Proof. apply pow2_pos. Qed.
  Lemma B_H : B = 2 * 2 ^ a * H. Proof. unfold B, H. rewrite !Nat.pow_add_r. cbn [Nat.pow]. lia. Qed.
  Lemma E_H : E = 16 * H. Proof. unfold E, H. rewrite !Nat.pow_add_r. cbn [Nat.pow]. lia. Qed.
  Lemma pow_a : 2 ^ a = 1 \/ 2 ^ a = 2 \/ 2 ^ a = 4.
  Proof. destruct a as [|[|[|?]]]; cbn; auto. lia. Qed.
  Lemma HB : H < B. Proof. rewrite B_H. pose proof H_pos. destruct pow_a as [-> |[-> | ->]]; lia. Qed.
  Lemma BE : B < E. Proof. rewrite B_H, E_H. pose proof H_pos. destruct pow_a as [-> |[-> | ->]]; lia. Qed.
  Lemma E_mod_B : E mod B = 0.
  Proof. unfold E, B. replace (h + 4) with ((3 - a) + (h + a + 1)) by lia. rewrite (Nat.pow_add_r 2 (3 - a)). apply Nat.mod_mul. pose proof (pow2_pos (h + a + 1)). lia. Qed.
  Lemma E_mod_H : E mod H = 0.
  Proof. rewrite E_H. apply Nat.mod_mul. pose proof H_pos. lia. Qed.

  Lemma family_ticks c en rst : c 0 < E ->
    let r := timers_step [H; B; E] c (en, rst) in
    snd r = [en && (c 0 mod H =? 0); en && (c 0 mod B =? 0); (c 0 =? 0) && en && negb rst] /\
    fst r 0 = if rst || (en && (c 0 =? 0)) then E - 1 else if en then c 0 - 1 else c 0.
  Proof.
    intros Hc r. pose proof H_pos as P0. pose proof HB as P1. pose proof BE as P2.
    assert (PB : pow2b B = true) by apply pow2b_pow. assert (PE : pow2b E = true) by apply pow2b_pow. assert (PH : pow2b H = true) by apply pow2b_pow.
    destruct (Nat.eq_dec H 1) as [H1|H1].
    - assert (S : sorted_timers [H; B; E] = [(2, E); (1, B)]).
      { unfold sorted_timers, enum_timers. cbn [length seq combine filter snd]. destruct (Nat.eqb_spec H 1); [|lia]. destruct (Nat.eqb_spec B 1); [lia|]. destruct (Nat.eqb_spec E 1); [lia|].
        cbn [negb sort_timers fold_right insert_timer snd fst]. destruct (Nat.ltb_spec B E); [reflexivity|lia]. }
      destruct (resolve2 E B PE PB E_mod_B) as [R0 R1]. unfold r, timers_step. rewrite S. cbn [map snd length Nat.add].
      set (par := resolve_sharing [E; B]) in *. split.
      + unfold enum_timers. cbn [length seq combine map snd fst find nth Nat.eqb].
        destruct (Nat.eqb_spec H 1); [|lia]. destruct (Nat.eqb_spec B 1); [lia|]. destruct (Nat.eqb_spec E 1); [lia|].
        rewrite H1, Nat.mod_1_r. rewrite (tick_bits [E; B] par _ c en rst 1 (h + a + 1) R1 R0) by (cbn [mv nth]; unfold B; try lia; reflexivity).
        rewrite tick_root by exact R0. cbn [Nat.eqb]. rewrite andb_true_r, (andb_comm _ en). reflexivity.
      + cbn [fst]. rewrite next_root by assumption. reflexivity.
    - assert (S : sorted_timers [H; B; E] = [(2, E); (1, B); (0, H)]).
      { unfold sorted_timers, enum_timers. cbn [length seq combine filter snd]. destruct (Nat.eqb_spec H 1); [lia|]. destruct (Nat.eqb_spec B 1); [lia|]. destruct (Nat.eqb_spec E 1); [lia|].
        cbn [negb sort_timers fold_right insert_timer snd fst]. destruct (Nat.ltb_spec B E); [|lia]. cbn [insert_timer snd]. destruct (Nat.ltb_spec H E); [|lia]. destruct (Nat.ltb_spec H B); [reflexivity|lia]. }
      destruct (resolve3 E B H PE PB PH E_mod_B E_mod_H) as (R0 & R1 & R2). unfold r, timers_step. rewrite S. cbn [map snd length Nat.add].
      set (par := resolve_sharing [E; B; H]) in *. split.
      + unfold enum_timers. cbn [length seq combine map snd fst find nth Nat.eqb].
        destruct (Nat.eqb_spec H 1); [lia|]. destruct (Nat.eqb_spec B 1); [lia|]. destruct (Nat.eqb_spec E 1); [lia|].
        rewrite (tick_bits [E; B; H] par _ c en rst 1 (h + a + 1) R1 R0) by (cbn [mv nth]; unfold B; try lia; reflexivity).
        assert (1 <= h). { destruct h; [exfalso; apply H1; reflexivity|lia]. }
        rewrite (tick_bits [E; B; H] par _ c en rst 2 h R2 R0) by (cbn [mv nth]; unfold H; try lia; reflexivity).
        rewrite tick_root by exact R0. rewrite !(andb_comm _ en). reflexivity.
      + cbn [fst]. rewrite next_root by assumption. reflexivity.
  Qed.
  Lemma family_init : timers_init [H; B; E] 0 = E - 1.
  Proof.
    pose proof H_pos as P0. pose proof HB as P1. pose proof BE as P2.
    assert (PB : pow2b B = true) by apply pow2b_pow. assert (PE : pow2b E = true) by apply pow2b_pow. assert (PH : pow2b H = true) by apply pow2b_pow.
    destruct (Nat.eq_dec H 1) as [H1|H1].
    - assert (S : sorted_timers [H; B; E] = [(2, E); (1, B)]).
      { unfold sorted_timers, enum_timers. cbn [length seq combine filter snd]. destruct (Nat.eqb_spec H 1); [|lia]. destruct (Nat.eqb_spec B 1); [lia|]. destruct (Nat.eqb_spec E 1); [lia|].
        cbn [negb sort_timers fold_right insert_timer snd fst]. destruct (Nat.ltb_spec B E); [reflexivity|lia]. }
      destruct (resolve2 E B PE PB E_mod_B) as [R0 R1]. unfold timers_init. rewrite S. cbn [map snd]. unfold cnt_reload. rewrite R0. reflexivity.
    - assert (S : sorted_timers [H; B; E] = [(2, E); (1, B); (0, H)]).
      { unfold sorted_timers, enum_timers. cbn [length seq combine filter snd]. destruct (Nat.eqb_spec H 1); [lia|]. destruct (Nat.eqb_spec B 1); [lia|]. destruct (Nat.eqb_spec E 1); [lia|].
        cbn [negb sort_timers fold_right insert_timer snd fst]. destruct (Nat.ltb_spec B E); [|lia]. cbn [insert_timer snd]. destruct (Nat.ltb_spec H E); [|lia]. destruct (Nat.ltb_spec H B); [reflexivity|lia]. }
      destruct (resolve3 E B H PE PB PH E_mod_B E_mod_H) as (R0 & R1 & R2). unfold timers_init. rewrite S. cbn [map snd]. unfold cnt_reload. rewrite R0. reflexivity.
  Qed.
End Family.
