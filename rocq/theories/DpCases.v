(** Concrete runs for the statements in DpProps.v. *)
From Verif Require Import Base BaseFacts FifoModel DpModel DpSpec DpProofs DpRModel DpRSpec DpRProofs.

(** a single cycle in which a request is taken *)
Definition one (c : dpcfg) (q : dreq) : list ah_cyc := trace (ah_step c 0) (ah_init 0 0) [mk_ahi true q true true false].
Lemma one_kept c q : req_kept (one c q).
Proof. intros t1 x y t2 E. unfold one in E. rewrite trace_cons in E. destruct t1 as [|? [|? ?]]; discriminate. Qed.
Lemma one_law c q x : one c q = [x] -> ao_rd (snd x) = true -> ai_vld (fst x) = true -> ah_law c (one c q) ->
  served c (ai_req (fst x)) (ah_burst x) (ah_info x).
Proof.
  intros E R V [gs [rest [Hg [Hb [Hi Hr]]]]]. rewrite E in *. cbn [flat_map] in *. rewrite !app_nil_r in *.
  unfold ah_taken in Hg. rewrite R, V in Hg. cbn [andb] in Hg. inversion Hg as [|? g ? ? Hs Hg']; subst. inversion Hg'; subst. cbn [flat_map] in *. rewrite !app_nil_r in *.
  destruct Hr as [-> | [t1 [y [Ey [_ [Ry _]]]]]].
  - cbn [fst snd] in *. rewrite !app_nil_r in *. rewrite Hb, Hi. exact Hs.
  - exfalso. destruct t1 as [|? [|? ?]]; [|discriminate|discriminate]. injection Ey as <-. congruence.
Qed.
(** decision of the side conditions on a run *)
Fixpoint kept_b {D} (t : list (rp_in D * rp_out D)) : bool :=
  match t with
  | x :: (y :: _) as t' =>
      (negb (pi_vld (fst x) && negb (po_rd (snd x))) ||
       (pi_vld (fst y) && (q_addr (pi_req (fst y)) =? q_addr (pi_req (fst x))) && (q_len (pi_req (fst y)) =? q_len (pi_req (fst x)))
        && (q_rem (pi_req (fst y)) =? q_rem (pi_req (fst x))))) && kept_b t'
  | _ => true
  end.
Lemma kept_b_ok {D} (t : list (rp_in D * rp_out D)) : kept_b t = true -> rp_kept t.
Proof.
  intros H t1 x y t2 ->. induction t1 as [|z t1 IH]; cbn [app] in H.
  - cbn [kept_b] in H. apply andb_true_iff in H. destruct H as [H _]. intros V R. rewrite V, R in H. cbn [andb negb orb] in H.
    rewrite !andb_true_iff, !Nat.eqb_eq in H. destruct H as [[[A B] C] E]. split; [exact A|].
    destruct (pi_req (fst y)), (pi_req (fst x)). cbn in *. congruence.
  - apply IH. destruct t1 as [|z' t1]; cbn [app kept_b] in H; apply andb_true_iff in H; apply H.
Qed.
Fixpoint prefix_b (a b : list bool) : bool :=
  match a, b with [], _ => true | x :: a', y :: b' => Bool.eqb x y && prefix_b a' b' | _, _ => false end.
Lemma prefix_b_ok a b : prefix_b a b = true -> exists m, b = a ++ m.
Proof.
  revert b. induction a as [|x a IH]; intros b H; [exists b; reflexivity|]. destruct b as [|y b]; [discriminate|].
  cbn in H. apply andb_true_iff in H. destruct H as [E H]. apply eqb_prop in E. destruct (IH _ H) as [m ->]. exists m. rewrite E. reflexivity.
Qed.
Definition answers_b {D} c (t : list (rp_in D * rp_out D)) : bool :=
  forallb (fun n => prefix_b (map snd (flat_map (rp_beat c) (firstn n t))) (flat_map burst_lasts (flat_map rp_burst (firstn n t)))) (seq 0 (length t + 1)).
Lemma answers_b_ok {D} c (t : list (rp_in D * rp_out D)) : answers_b c t = true -> rp_answers c t.
Proof.
  intros H t1 t2 ->. unfold answers_b in H. rewrite forallb_forall in H. specialize (H (length t1)).
  rewrite firstn_app, Nat.sub_diag, firstn_all, firstn_O, app_nil_r in H. apply prefix_b_ok, H, in_seq. rewrite app_length. lia.
Qed.

(** AXI3 with words of 8 bytes *)
Definition cfg3 : dpcfg := mk_dpcfg 4 13 8 8 8 511 4.
(** MAX_LEN = 0 with byte addresses *)
Definition cfg_len0 : dpcfg := mk_dpcfg 8 13 8 1 8 0 4.
(** DATA_WIDTH = 8 *)
Definition cfg_byte : dpcfg := mk_dpcfg 8 13 1 1 1 15 4.
(** ALIGNAS = 32, DATA_WIDTH = CHUNK_WIDTH = 64 *)
Definition cfg_chunk : dpcfg := mk_dpcfg 8 13 8 4 8 15 4.
(** MAX_LEN + 1 = 256, ALIGNAS = CHUNK_WIDTH = 32, DATA_WIDTH = 64 *)
Definition cfg_wrap : dpcfg := mk_dpcfg 8 13 8 4 4 255 4.
Lemma cfg_ok_pow LW' AW' w a k l m o : w <= AW' -> a <= w -> dp_cfg_ok (mk_dpcfg LW' AW' (2 ^ w) (2 ^ a) (2 ^ k) l (m + o)).
Proof. intros H1 H2. split; [exists w; auto|]. split; [exists a; reflexivity|]. split; [apply Nat.pow_le_mono_r; [lia|exact H2]|exists k; reflexivity]. Qed.
Lemma cfg3_ok : dp_cfg_ok cfg3. Proof. apply (cfg_ok_pow 4 13 3 3 3 511 0 4); lia. Qed.
Lemma cfg_len0_ok : dp_cfg_ok cfg_len0. Proof. apply (cfg_ok_pow 8 13 3 0 3 0 0 4); lia. Qed.
Lemma cfg_byte_ok : dp_cfg_ok cfg_byte. Proof. apply (cfg_ok_pow 8 13 0 0 0 15 0 4); lia. Qed.
Lemma cfg_chunk_ok : dp_cfg_ok cfg_chunk. Proof. apply (cfg_ok_pow 8 13 3 2 3 15 0 4); lia. Qed.
Lemma cfg_wrap_ok : dp_cfg_ok cfg_wrap. Proof. apply (cfg_ok_pow 8 13 3 2 2 255 0 4); lia. Qed.

Lemma chunk_lt : AL cfg_chunk < CB cfg_chunk. Proof. cbn. lia. Qed.

Ltac no_law := intros L; eapply one_law in L; [|reflexivity|vm_compute; reflexivity|reflexivity];
  destruct L as [W _ _ _]; vm_compute in W; discriminate.
Definition q_len0 := mk_dreq 5 0 0.
Definition q_byte := mk_dreq 3 2 0.
Definition q_chunk := mk_dreq 4 0 4.
Definition q_wrap := mk_dreq 4 255 0.
Ltac small := cbn; lia.
Lemma dreq_ok_dec c q : (q_addr q <? 2 ^ AW c) && (q_len q <=? MAXLEN c) && (q_rem q <? WB c) && (q_addr q mod AL c =? 0) = true -> dreq_ok c q.
Proof. rewrite !andb_true_iff, !Nat.ltb_lt, Nat.leb_le, Nat.eqb_eq. intros [[[A B] C] E]. repeat split; assumption. Qed.
Lemma len0_bad : dreq_ok cfg_len0 q_len0 /\ ~ ah_law cfg_len0 (one cfg_len0 q_len0).
Proof. split; [apply dreq_ok_dec; vm_compute; reflexivity|no_law]. Qed.
Lemma byte_bad : dreq_ok cfg_byte q_byte /\ ~ ah_law cfg_byte (one cfg_byte q_byte).
Proof. split; [apply dreq_ok_dec; vm_compute; reflexivity|no_law]. Qed.
Lemma chunk_bad : dreq_ok cfg_chunk q_chunk /\ ~ ah_law cfg_chunk (one cfg_chunk q_chunk).
Proof. split; [apply dreq_ok_dec; vm_compute; reflexivity|no_law]. Qed.
Lemma wrap_bad : dreq_ok cfg_wrap q_wrap /\ ~ ah_law cfg_wrap (one cfg_wrap q_wrap).
Proof. split; [apply dreq_ok_dec; vm_compute; reflexivity|no_law]. Qed.

(** a run of the read datapump: a request of 18 words, which is split, and one of a single word *)
Definition rd_a : dreq := mk_dreq 128 17 3.
Definition rd_b : dreq := mk_dreq 0 0 0.
Definition rin (v : bool) (q : dreq) (ar rv : bool) (d : nat) (l rdy : bool) : rp_in nat := mk_rpi v q ar rv d l true rdy.
Definition rd_is : list (rp_in nat) :=
  [rin true rd_a false false 0 false false; rin true rd_a true false 0 false true; rin true rd_a true false 0 false true; rin true rd_b true true 100 false true]
  ++ map (fun k => rin false rd_b true true (101 + k) (k =? 14) true) (seq 0 15)
  ++ [rin false rd_b true true 116 false false; rin false rd_b true true 116 false true; rin false rd_b true true 117 true true; rin false rd_b true true 118 true true].
Definition rd_t := trace (rp_step cfg3 0) (rp_init cfg3 0 0 (fun _ => (0, false)) (0, false)) rd_is.
Definition env_b {D} (c : dpcfg) (i : rp_in D) : bool :=
  (negb (pi_v i) || pi_okay i) &&
  (negb (pi_vld i) || ((q_addr (pi_req i) <? 2 ^ AW c) && (q_len (pi_req i) <=? MAXLEN c) && (q_rem (pi_req i) <? WB c) && (q_addr (pi_req i) mod AL c =? 0)
     && (q_addr (pi_req i) mod CB c =? 0) && (2 ^ LW c <? MAXLEN c + 1))).
Lemma env_b_ok {D} c (i : rp_in D) : env_b c i = true -> rp_env c i.
Proof.
  unfold env_b. intros H. apply andb_true_iff in H. destruct H as [H1 H2]. split; intros V; rewrite V in *; cbn [negb orb] in *; [exact H1|].
  rewrite !andb_true_iff in H2. destruct H2 as [[H2 H3] H4]. split; [apply dreq_ok_dec; rewrite !andb_true_iff; tauto|].
  split; [right; apply Nat.eqb_eq, H3|left; left; apply Nat.ltb_lt, H4].
Qed.
Lemma rd_env : Forall (rp_env cfg3) rd_is.
Proof.
  apply Forall_forall. intros i Hi. apply env_b_ok. revert i Hi. apply forallb_forall. vm_compute. reflexivity.
Qed.
Lemma rd_kept : rp_kept rd_t. Proof. apply kept_b_ok. vm_compute. reflexivity. Qed.
Lemma rd_answers : rp_answers cfg3 rd_t. Proof. apply answers_b_ok. vm_compute. reflexivity. Qed.

(** the read datapump gets an error answer *)
Definition rd_err : list (rp_in nat) :=
  [rin true rd_a true false 0 false true; rin true rd_a true false 0 false true; rin false rd_a true true 100 false true;
   mk_rpi false rd_a true true 101 false false true; rin true rd_b true true 102 false true; rin true rd_b true true 103 false true].
(** the address handler with unaligned addresses: 18 words from byte 133 *)
Definition cfg_un : dpcfg := mk_dpcfg 4 13 8 1 8 511 4.
Definition un_q : dreq := mk_dreq 133 17 0.
Definition un_is : list ah_in := [mk_ahi true un_q false true false; mk_ahi true un_q true true false; mk_ahi true un_q true false false; mk_ahi true un_q true true false;
  mk_ahi false un_q true true false].
Definition un_t := trace (ah_step cfg_un 0) (ah_init 0 0) un_is.
Lemma un_run : dp_cfg_ok cfg_un /\ Forall (fun i => ai_vld i = true -> dreq_ok cfg_un (ai_req i) /\ chunk_aligned cfg_un (ai_req i) /\ fits cfg_un (ai_req i)) un_is /\
  req_kept un_t /\
  flat_map ah_taken un_t = [un_q] /\
  flat_map ah_burst un_t = [(128, 15); (256, 2)] /\ word_addrs 8 13 un_q = map (fun k => 128 + 8 * k) (seq 0 19).
Proof.
  assert (dreq_ok cfg_un un_q /\ chunk_aligned cfg_un un_q /\ fits cfg_un un_q) as Hq.
  { split; [apply dreq_ok_dec; vm_compute; reflexivity|]. split; [left; reflexivity|left; left; apply Nat.ltb_lt; vm_compute; reflexivity]. }
  split; [apply (cfg_ok_pow 4 13 3 0 3 511 0 4); lia|]. split; [repeat (constructor; [intros _; exact Hq|]); constructor|]. split.
  - assert (map (fun x => (ai_vld (fst x), ai_req (fst x), ao_rd (snd x))) un_t =
      [(true, un_q, false); (true, un_q, false); (true, un_q, false); (true, un_q, true); (false, un_q, true)]) as E by (vm_compute; reflexivity).
    intros t1 x y t2 Et. rewrite Et, map_app in E. cbn [map] in E. intros V R.
    do 5 (destruct t1 as [|? t1]; [cbn [map app] in E; injection E; intros; first [split; congruence|congruence]|cbn [map app] in E; apply (f_equal (@tl _)) in E; cbn [tl] in E]).
    clear Et. destruct t1; discriminate E.
  - vm_compute. repeat split.
Qed.
