(** Proofs about Axi4S_footerSplit. *)
From Verif Require Import Base BaseFacts FsModel FsSpec.

Section G.
Context {byte : Type}.
Notation word := (word byte).
Notation cell := (cell byte).
Variables B F : nat.
Hypothesis HB : 1 <= B.
Hypothesis HF : 1 <= F.
Notation L := (LA B F).
Notation step := (fs_step (byte := byte) B F).

Lemma L_ge : F <= L * B.
Proof. unfold LA. pose proof (Nat.div_mod (F + B - 1) B ltac:(lia)). pose proof (Nat.mod_upper_bound (F + B - 1) B ltac:(lia)). nia. Qed.
Lemma L_pos : 1 <= L.
Proof. pose proof L_ge. destruct L; lia. Qed.
Lemma L_le : forall m, F <= m * B -> L <= m.
Proof. intros m H. unfold LA. apply Nat.lt_succ_r. apply Nat.div_lt_upper_bound; nia. Qed.

(** number of bytes to the end of the frame from the head of the stream *)
Definition nb (w : word) : nat := last_bytes B (w_k w).
Fixpoint rem (q : list word) : nat :=
  match q with [] => 0 | w :: q' => if w_l w then nb w else B + rem q' end.
(** the bytes of the footer in the word with r bytes from its start to the end of the frame *)
Definition fmask (r : nat) : list bool := map (fun b => (r <=? b + F) && (b <? r)) (seq 0 B).

Lemma nth_map_seq (f : nat -> bool) n b : nth b (map f (seq 0 n)) false = (b <? n) && f b.
Proof.
  destruct (Nat.ltb_spec b n) as [H|H].
  - rewrite (nth_indep _ false (f 0)) by (now rewrite map_length, seq_length).
    rewrite map_nth, seq_nth by exact H. reflexivity.
  - rewrite nth_overflow by (rewrite map_length, seq_length; lia). reflexivity.
Qed.
Lemma nth_fmask r b : nth b (fmask r) false = (b <? B) && ((r <=? b + F) && (b <? r)).
Proof. unfold fmask. rewrite nth_map_seq. reflexivity. Qed.
Lemma fmask_zeros r : F + B <= r -> fmask r = zeros B.
Proof.
  intros H. unfold fmask, zeros. apply (nth_ext _ _ false false); [now rewrite map_length, seq_length, repeat_length|].
  intros n Hn. rewrite map_length, seq_length in Hn. change (map _ _) with (fmask r). rewrite nth_fmask, nth_repeat.
  destruct (Nat.ltb_spec n B); [|reflexivity]. destruct (Nat.leb_spec r (n + F)); [lia|reflexivity].
Qed.
Lemma range_fmask n j : 1 <= n -> j <= L -> foot_range B F n (L - j) = fmask (j * B + n).
Proof.
  intros Hn Hj. unfold foot_range, fmask. apply map_ext_in. intros b Hb. apply in_seq in Hb. unfold foot_bit. pose proof L_ge.
  assert ((L - j) * B = L * B - j * B) by nia. assert (j * B <= L * B) by nia.
  f_equal; [|]; match goal with |- ?a = ?b => destruct a eqn:E1, b eqn:E2; try reflexivity end;
  rewrite ?Nat.leb_le, ?Nat.leb_gt, ?Nat.ltb_lt, ?Nat.ltb_ge in *; lia.
Qed.
Lemma existsb_fmask r : 1 <= r -> existsb id (fmask r) = (r <? F + B).
Proof.
  intros Hr. destruct (Nat.ltb_spec r (F + B)) as [H|H].
  - apply existsb_exists. exists true. split; [|reflexivity].
    set (b := if r <=? F then 0 else r - F).
    replace true with (nth b (fmask r) false).
    + apply nth_In. unfold fmask. rewrite map_length, seq_length. unfold b. destruct (Nat.leb_spec r F); lia.
    + rewrite nth_fmask. unfold b. destruct (Nat.leb_spec r F); rewrite !(proj2 (Nat.ltb_lt _ _)), (proj2 (Nat.leb_le _ _)) by lia; reflexivity.
  - rewrite fmask_zeros by lia. unfold zeros. clear. induction B; cbn; auto.
Qed.

Lemma find_seq (P : nat -> bool) n l : forall a, a <= n <= a + l -> (forall k, a <= k < a + l -> P k = (n <=? k)) ->
  find P (seq a l) = if n <? a + l then Some n else None.
Proof.
  induction l; intros a Ha HP; cbn [seq find].
  - rewrite (proj2 (Nat.ltb_ge _ _)) by lia. reflexivity.
  - rewrite HP by lia. destruct (Nat.leb_spec n a).
    + rewrite (proj2 (Nat.ltb_lt _ _)) by lia. f_equal. lia.
    + rewrite IHl by (try intros; try apply HP; lia). replace (S a + l) with (a + S l) by lia. reflexivity.
Qed.
Lemma last_bytes_ok n : 1 <= n <= B -> last_bytes B (repeat true n ++ repeat false (B - n)) = n.
Proof.
  intros Hn. unfold last_bytes. rewrite (find_seq _ n).
  - destruct (Nat.ltb_spec n (1 + (B - 1))); lia.
  - lia.
  - intros k Hk. destruct (Nat.leb_spec n k).
    + rewrite app_nth2, repeat_length by (rewrite repeat_length; lia). 
      rewrite (nth_indep _ true false) by (rewrite repeat_length; lia). now rewrite nth_repeat.
    + rewrite app_nth1 by (rewrite repeat_length; lia). now rewrite nth_repeat.
Qed.

(** * Registers as a part of the stream *)
(** what is known about the words newer than a register: Un u: the last u words belong to the frame which is not complete,
    Sn: they belong to a complete frame, Ho: the previous register is empty *)
Inductive ctx := Un (u : nat) | Sn | Ho.
Definition push (acc : list word) (c : cell) : list word := if c_v c then c_w c :: acc else acc.
Fixpoint stream (cs : list cell) (acc : list word) : list word :=
  match cs with [] => acc | c :: cs' => stream cs' (push acc c) end.
Definition nxt (st : ctx) (c : cell) : ctx :=
  if c_v c then if w_l (c_w c) then Sn else match st with Un u => Un (S u) | st => st end else Ho.
(** m: the number of accepted words of the frame which is not complete *)
Definition okc (m : nat) (st : ctx) (acc : list word) (c : cell) : Prop :=
  if c_v c then
    if w_l (c_w c) then c_m c = fmask (rem (c_w c :: acc)) /\ (forall u, st = Un u -> u = m)
    else match st with Un u => c_m c = zeros B | Sn => c_m c = fmask (rem (c_w c :: acc)) | Ho => False end
  else forall u, st = Un u -> u = m.
Fixpoint good (m : nat) (st : ctx) (acc : list word) (cs : list cell) : Prop :=
  match cs with [] => True | c :: cs' => okc m st acc c /\ good m (nxt st c) (push acc c) cs' end.

Lemma stream_app cs ds : forall acc, stream (cs ++ ds) acc = stream ds (stream cs acc).
Proof. induction cs; intros; cbn; auto. Qed.
Lemma good_app m cs ds : forall st acc,
  good m st acc (cs ++ ds) <-> good m st acc cs /\ good m (fold_left nxt cs st) (stream cs acc) ds.
Proof. induction cs as [|c cs IH]; intros; cbn; [tauto|]. rewrite IH. tauto. Qed.

(** an empty register can be removed, and put in front of the last word of a frame *)
Lemma good_U_H m u acc cs : u = m -> good m Ho acc cs -> good m (Un u) acc cs.
Proof.
  intros -> G. destruct cs as [|c cs]; [exact I|]. cbn in *. unfold okc, nxt in *. destruct (c_v c).
  - destruct (w_l (c_w c)); [|now destruct G]. destruct G as [[? _] G]. split; [|exact G]. split; [assumption|]. intros u [= ->]. reflexivity.
  - destruct G as [_ G]. split; [|exact G]. intros u [= ->]. reflexivity.
Qed.
Lemma good_Z_H m acc cs : good m Ho acc cs -> good m Sn acc cs.
Proof.
  intros G. destruct cs as [|c cs]; [exact I|]. cbn in *. unfold okc, nxt in *. destruct (c_v c).
  - destruct (w_l (c_w c)); [|now destruct G]. destruct G as [[? _] G]. split; [|exact G]. split; [assumption|]. discriminate.
  - destruct G as [_ G]. split; [|exact G]. discriminate.
Qed.
Lemma good_drop m st acc c cs : c_v c = false -> good m st acc (c :: cs) -> good m st acc cs.
Proof.
  cbn. unfold okc, nxt, push. intros ->. intros [Hu G]. destruct st.
  - apply good_U_H; auto.
  - now apply good_Z_H.
  - exact G.
Qed.
Lemma good_hole m st acc p c cs : c_v p = false -> c_v c = true -> w_l (c_w c) = true ->
  good m st acc (c :: cs) -> good m st acc (p :: c :: cs).
Proof.
  cbn. unfold okc, nxt, push. intros -> -> -> [[Hm Hu] G]. split; [exact Hu|]. split; [|exact G]. split; [exact Hm|discriminate].
Qed.

(** ** plain shift *)
Fixpoint pshift (x : bool) (p : cell) (cs : list cell) : list cell :=
  match cs with [] => [] | c :: cs' => (if rdy x cs then p else c) :: pshift x c cs' end.
Lemma pshift_stuck x cs : forall p, rdy x cs = false -> pshift x p cs = cs.
Proof.
  induction cs as [|c cs IH]; intros p Hr; [reflexivity|]. cbn [pshift]. rewrite Hr. cbn in Hr. apply orb_false_iff in Hr.
  rewrite IH by tauto. reflexivity.
Qed.
Lemma pshift_good m x cs : forall st acc p, rdy x cs = true -> good m st acc (p :: cs) -> good m st acc (pshift x p cs).
Proof.
  induction cs as [|c cs IH]; intros st acc p Hr G; [exact I|]. cbn [pshift]. rewrite Hr. destruct G as [Gp G]. split; [exact Gp|].
  destruct (rdy x cs) eqn:Er.
  - now apply IH.
  - rewrite pshift_stuck by exact Er. cbn in Hr. rewrite Er, orb_false_r in Hr. apply negb_true_iff in Hr. now apply good_drop in G.
Qed.
(** whether the last register is emptied *)
Definition leaves (x : bool) (cs : list cell) : bool := match rev cs with [] => false | c :: _ => c_v c && x end.
Lemma leaves_cons x c d cs : leaves x (c :: d :: cs) = leaves x (d :: cs).
Proof.
  unfold leaves. cbn [rev]. destruct (rev cs) as [|e r] eqn:E; cbn; [reflexivity|]. reflexivity.
Qed.
Lemma leaves_rdy x cs : rdy x cs = false -> leaves x cs = false.
Proof.
  induction cs as [|c cs IH]; intros Hr; [reflexivity|]. cbn in Hr. apply orb_false_iff in Hr. destruct Hr as [_ Hr].
  destruct cs; [cbn in *; rewrite Hr; apply andb_false_r|]. rewrite leaves_cons. auto.
Qed.
Lemma pshift_stream x cs : forall acc p, rdy x cs = true ->
  stream (p :: cs) acc = (if leaves x (p :: cs) then firstn 1 (stream (p :: cs) acc) else []) ++ stream (pshift x p cs) acc.
Proof.
  induction cs as [|c cs IH]; intros acc p Hr.
  - cbn in *. subst x. rewrite andb_true_r. unfold push. destruct (c_v p); reflexivity.
  - rewrite leaves_cons. cbn [pshift]. rewrite Hr. cbn [stream].
    destruct (rdy x cs) eqn:Er.
    + specialize (IH (push acc p) c eq_refl). exact IH.
    + rewrite pshift_stuck by exact Er. cbn in Hr. rewrite Er, orb_false_r in Hr. apply negb_true_iff in Hr.
      replace (leaves x (c :: cs)) with false by (destruct cs; [cbn in *; now rewrite Er, andb_false_r|rewrite leaves_cons; symmetry; now apply leaves_rdy]).
      cbn [app]. unfold push at 1. rewrite Hr. reflexivity.
Qed.

(** equal up to the content of empty registers *)
Definition ceq (c d : cell) : Prop := c = d \/ c_v c = false /\ c_v d = false.
Lemma ceq_good m cs ds : Forall2 ceq cs ds -> forall st acc, good m st acc ds -> good m st acc cs.
Proof.
  induction 1 as [|c d cs ds E _ IH]; intros st acc G; [exact I|]. destruct G as [G1 G2]. destruct E as [->|[E1 E2]].
  - split; auto.
  - cbn. unfold okc, nxt, push in *. rewrite E1. rewrite E2 in G1, G2. split; auto.
Qed.
Lemma ceq_stream cs ds : Forall2 ceq cs ds -> forall acc, stream cs acc = stream ds acc.
Proof.
  induction 1 as [|c d cs ds E _ IH]; intros acc; [reflexivity|]. cbn. rewrite IH. destruct E as [->|[E1 E2]]; [reflexivity|].
  unfold push. now rewrite E1, E2.
Qed.

(** ** the shift without a word on the input *)
Lemma shift_flush n x (cs : list cell) : forall i p, Forall2 ceq (shift B F false false n i p true x cs) (pshift x p cs).
Proof.
  induction cs as [|c cs IH]; intros i p; [constructor|]. cbn [shift pshift]. unfold flush at 1. rewrite orb_true_r.
  constructor; [|apply IH]. unfold next_cell, flush. rewrite !orb_true_r, andb_true_r. cbn [andb].
  destruct (rdy x (c :: cs)); [|left; reflexivity]. destruct p as [[|] w mm]; cbn; [left; reflexivity|right; auto].
Qed.
Lemma shift_wait n x (cs : list cell) : fold_left flush cs false = false -> forall i p, shift B F false false n i p false x cs = cs.
Proof.
  intros Hf. assert (Hl : forall c, In c cs -> c_v c && w_l (c_w c) = false).
  { intros c Hin. apply in_split in Hin. destruct Hin as (a & b & ->). rewrite fold_left_app in Hf. cbn in Hf. unfold flush at 2 in Hf.
    assert (Hm : forall l : list cell, fold_left flush l true = true) by (induction l as [|d l IHl]; cbn; [reflexivity|unfold flush at 2; rewrite orb_true_r; auto]).
    destruct (c_v c && w_l (c_w c)); [|reflexivity]. cbn in Hf. rewrite Hm in Hf. discriminate. }
  clear Hf. induction cs as [|c cs IH]; intros i p; [reflexivity|]. cbn [shift]. unfold flush at 1. rewrite (Hl c) by (now left). cbn [orb].
  rewrite IH by (intros; apply Hl; now right). f_equal. unfold next_cell, flush. rewrite (Hl c) by (now left). rewrite andb_false_r. cbn.
  match goal with |- context [if ?b then _ else _] => destruct b end; destruct c; reflexivity.
Qed.
Lemma idle_shift n x (cs : list cell) p m acc : forall i st, good m st acc cs -> exists cs',
  (fold_left flush cs false = false /\ shift B F false false n i p false x cs = cs) \/
  (fold_left flush cs false = true /\ Forall2 ceq (shift B F false false n i p false x cs) cs' /\ good m st acc cs' /\
   stream cs acc = (if leaves x cs then firstn 1 (stream cs acc) else []) ++ stream cs' acc).
Proof.
  destruct (fold_left flush cs false) eqn:Ef; [|intros; exists []; left; split; [reflexivity|now apply shift_wait]].
  intros i st G. revert acc i st p G Ef. induction cs as [|c cs IH]; intros acc i st p G Ef; [discriminate|].
  cbn in Ef. unfold flush at 2 in Ef. rewrite orb_false_r in Ef. destruct (c_v c && w_l (c_w c)) eqn:El.
  - (* the last word of a frame: all registers from it are shifted *)
    apply andb_true_iff in El. destruct El as [Ev El].
    exists (pshift x (mk_c false (c_w c) (zeros B)) (c :: cs)). right. split; [reflexivity|]. split; [|split].
    + cbn [shift pshift]. constructor.
      * unfold next_cell, flush. rewrite Ev, El, andb_false_r. cbn [orb andb]. destruct (rdy x (c :: cs)); [right; auto|left; reflexivity].
      * unfold flush at 1. rewrite Ev, El. apply shift_flush.
    + destruct (rdy x (c :: cs)) eqn:Er.
      * apply pshift_good; [exact Er|]. now apply good_hole.
      * now rewrite pshift_stuck.
    + destruct (rdy x (c :: cs)) eqn:Er.
      * pose proof (pshift_stream x (c :: cs) acc (mk_c false (c_w c) (zeros B)) Er) as Hs. rewrite leaves_cons in Hs.
        cbn [stream] in Hs |- *. unfold push at 1 3 in Hs. cbn [c_v] in Hs. exact Hs.
      * rewrite pshift_stuck, leaves_rdy by exact Er. reflexivity.
  - destruct G as [G1 G2]. destruct (IH (push acc c) (S i) _ c G2 Ef) as (cs' & [[? _]|(_ & E & G' & S')]); [congruence|].
    exists (c :: cs'). right. split; [reflexivity|]. split; [|split].
    + cbn [shift]. unfold flush at 1. rewrite El. cbn [orb]. constructor; [|exact E].
      unfold next_cell, flush. rewrite El, andb_false_r. cbn [orb andb]. left. match goal with |- context [if ?b then _ else _] => destruct b end; destruct c; reflexivity.
    + split; assumption.
    + destruct cs as [|d cs]; [discriminate Ef|]. rewrite leaves_cons. exact S'.
Qed.

Lemma shift_length dv set n x (cs : list cell) : forall i p pf, length (shift B F dv set n i p pf x cs) = length cs.
Proof. induction cs; intros; cbn [shift length]; auto. Qed.

(** ** the shift with a word on the input *)
Lemma cell_eta (c : cell) : mk_c (c_v c) (c_w c) (c_m c) = c.
Proof. destruct c; reflexivity. Qed.
Lemma shift_in n x (cs : list cell) m : forall i p pf st acc, good m st acc (p :: cs) ->
  Forall2 ceq (shift B F true false n i p pf x cs) (pshift x p cs).
Proof.
  induction cs as [|c cs IH]; intros i p pf st acc G; [constructor|]. cbn [shift pshift]. pose proof (proj2 G) as G'. constructor; [|exact (IH _ _ _ _ _ G')].
  unfold next_cell. cbn [orb andb]. rewrite andb_true_r. destruct (rdy x (c :: cs)); [|left; reflexivity].
  destruct (c_v p) eqn:Ep.
  - left. cbn [orb]. rewrite <- Ep. apply cell_eta.
  - right. cbn [c_v]. split; [|exact Ep]. unfold flush. destruct G' as [G' _]. unfold okc, nxt in G'. rewrite Ep in G'.
    destruct (c_v c) eqn:Ec; [|destruct pf; reflexivity]. destruct (w_l (c_w c)); [reflexivity|destruct G'].
Qed.

Lemma good_m m m' cs : forall st acc, (forall u, st <> Un u) -> good m st acc cs -> good m' st acc cs.
Proof.
  induction cs as [|c cs IH]; intros st acc Hst G; [exact I|]. destruct G as [G1 G2]. split.
  - unfold okc in *. destruct (c_v c); [destruct (w_l (c_w c))|].
    + split; [tauto|]. intros u ->. now destruct (Hst u).
    + destruct st; auto; now destruct (Hst u).
    + intros u ->. now destruct (Hst u).
  - apply (IH _ _) in G2; [exact G2|]. unfold nxt. destruct (c_v c); [destruct (w_l (c_w c))|]; try discriminate.
    destruct st; try discriminate. now destruct (Hst u).
Qed.
Lemma good_S m cs : forall u acc, good m (Un u) acc cs -> good (S m) (Un (S u)) acc cs.
Proof.
  induction cs as [|c cs IH]; intros u acc G; [exact I|]. destruct G as [G1 G2]. split.
  - unfold okc in *. destruct (c_v c); [destruct (w_l (c_w c))|].
    + split; [tauto|]. intros v [= <-]. destruct G1 as [_ G1]. now rewrite (G1 u).
    + exact G1.
    + intros v [= <-]. now rewrite (G1 u).
  - unfold nxt in *. destruct (c_v c); [destruct (w_l (c_w c))|].
    + revert G2. apply good_m; discriminate.
    + now apply IH.
    + revert G2. apply good_m; discriminate.
Qed.

(** the registers of the frame completed by the word on the input *)
Fixpoint remask (acc : list word) (cs : list cell) : list cell :=
  match cs with
  | [] => []
  | c :: cs' => if c_v c && negb (w_l (c_w c)) then mk_c true (c_w c) (fmask (rem (c_w c :: acc))) :: remask (c_w c :: acc) cs' else cs
  end.
Lemma remask_good m cs : forall u acc, good m (Un u) acc cs -> good 0 Sn acc (remask acc cs).
Proof.
  induction cs as [|c cs IH]; intros u acc G; [exact I|]. cbn [remask]. destruct (c_v c && negb (w_l (c_w c))) eqn:E.
  - apply andb_true_iff in E. destruct E as [Ev El]. apply negb_true_iff in El. destruct G as [_ G]. cbn. unfold okc, nxt, push in *. cbn.
    rewrite Ev, El in G. rewrite El. split; [reflexivity|]. exact (IH _ _ G).
  - apply andb_false_iff in E. destruct G as [G1 G2]. split.
    + unfold okc in *. destruct (c_v c); [destruct (w_l (c_w c))|].
      * split; [tauto|discriminate].
      * destruct E; discriminate.
      * discriminate.
    + unfold nxt in *. destruct (c_v c); [destruct (w_l (c_w c))|]; [| destruct E; discriminate |]; revert G2; apply good_m; discriminate.
Qed.
Lemma remask_stream cs : forall acc a, stream (remask acc cs) a = stream cs a.
Proof.
  induction cs as [|c cs IH]; intros acc a; [reflexivity|]. cbn [remask]. destruct (c_v c && _) eqn:E; [|reflexivity].
  cbn [stream]. rewrite IH. unfold push. cbn. apply andb_true_iff in E. now rewrite (proj1 E).
Qed.
Lemma remask_rdy x cs : forall acc, rdy x (remask acc cs) = rdy x cs.
Proof.
  induction cs as [|c cs IH]; intros acc; [reflexivity|]. cbn [remask]. destruct (c_v c && _) eqn:E; [|reflexivity].
  cbn [rdy c_v]. rewrite IH. apply andb_true_iff in E. now rewrite (proj1 E).
Qed.
Lemma remask_leaves x cs : forall acc, leaves x (remask acc cs) = leaves x cs.
Proof.
  assert (Hl : forall l, length (remask l cs) = length cs).
  { clear. induction cs as [|c cs IH]; intros l; [reflexivity|]. cbn [remask]. destruct (_ && _); cbn [length]; auto. }
  clear Hl. induction cs as [|c cs IH]; intros acc; [reflexivity|]. cbn [remask]. destruct (c_v c && _) eqn:E; [|reflexivity].
  apply andb_true_iff in E. destruct cs as [|d cs]; [cbn; now rewrite (proj1 E)|]. rewrite leaves_cons, <- (IH (c_w c :: acc)).
  cbn [remask]. destruct (_ && _); apply leaves_cons.
Qed.

Lemma shift_set_end n x cs k c pf : c_v c && negb (w_l (c_w c)) = false -> length cs <= 1 ->
  Forall2 ceq (shift B F true true n k c pf x cs) (pshift x c cs).
Proof.
  intros Hc Hl. destruct cs as [|o [|? ?]]; [constructor| |cbn in Hl; lia]. cbn [shift pshift]. constructor; [|constructor].
  unfold next_cell. cbn [orb andb]. rewrite andb_true_r. destruct (rdy x [o]); [|left; reflexivity].
  destruct (c_v c) eqn:Ev; cbn [andb negb] in *.
  - apply negb_false_iff in Hc. rewrite Hc. cbn. left. rewrite <- Ev. apply cell_eta.
  - right. cbn. auto.
Qed.
Lemma shift_set_run n x m (cs : list cell) : 1 <= n -> L <= S m -> forall i c pf acc,
  i + length cs = L + 1 -> 1 <= i -> rem acc = (i - 1) * B + n -> good m (Un (i - 1)) acc (c :: cs) -> rdy x (c :: cs) = true ->
  Forall2 ceq (shift B F true true n (S i) c pf x cs) 
    (match remask acc (c :: cs) with [] => [] | p :: ps => pshift x p ps end).
Proof.
  intros Hn HL. induction cs as [|d cs IH]; intros i c pf acc Hi H1 Hr G Rd.
  - cbn. destruct (_ && _); constructor.
  - change (remask acc (c :: d :: cs)) with (if c_v c && negb (w_l (c_w c))
      then mk_c true (c_w c) (fmask (rem (c_w c :: acc))) :: remask (c_w c :: acc) (d :: cs) else c :: d :: cs).
    destruct (c_v c && negb (w_l (c_w c))) eqn:E.
    + apply andb_true_iff in E. destruct E as [Ev El]. apply negb_true_iff in El. cbn [rdy] in Rd. rewrite Ev in Rd. cbn [negb orb] in Rd.
      assert (Hr2 : rem (c_w c :: acc) = i * B + n) by (cbn [rem]; rewrite El, Hr; replace i with (S (i - 1)) at 2 by lia; cbn; lia).
      destruct G as [_ G]. unfold nxt in G. rewrite Ev, El in G. unfold push in G. rewrite Ev in G.
      pose proof (IH (S i) d (flush pf d) (c_w c :: acc) ltac:(cbn [length] in Hi; lia) ltac:(lia)) as IH'.
      replace (S i - 1) with i in IH' by lia. specialize (IH' Hr2). replace (S (i - 1)) with i in G by lia. specialize (IH' G Rd).
      cbn [shift].
      assert (Rm : rdy x (remask (c_w c :: acc) (d :: cs)) = true) by (now rewrite remask_rdy).
      destruct (remask (c_w c :: acc) (d :: cs)) as [|p ps] eqn:Ep.
      { exfalso. cbn [remask] in Ep. destruct (_ && _) in Ep; discriminate. }
      cbn [pshift]. rewrite Rm. constructor; [|exact IH'].
      unfold next_cell. rewrite Ev, El. cbn [orb andb negb]. replace (rdy x (d :: cs)) with true by (symmetry; exact Rd). left. f_equal.
      unfold set_val. replace (L + 1 - S i) with (L - i) by lia. rewrite Hr2. apply range_fmask; [exact Hn|cbn [length] in Hi; lia].
    + apply shift_set_end; [exact E|]. cbn [length] in *. assert (i - 1 = m); [|lia].
      destruct G as [G _]. unfold okc in G. destruct (c_v c); [destruct (w_l (c_w c))|]; [|discriminate E|].
      * now apply (proj2 G).
      * now apply G.
Qed.
Lemma shift_set n x m w mm fut (cs : list cell) pf : 1 <= n -> L <= S m -> length cs = L + 1 -> w_l w = true -> nb w = n ->
  good m (Un 0) (w :: fut) cs -> rdy x cs = true ->
  Forall2 ceq (shift B F true true n 1 (mk_c true w mm) pf x cs) (pshift x (mk_c true w mm) (remask (w :: fut) cs)).
Proof.
  intros Hn HL Hlen Hw Hnb G Rd. destruct cs as [|c cs]; [constructor|].
  pose proof (shift_set_run n x m cs Hn HL 1 c (flush pf (mk_c true w mm)) (w :: fut)) as R.
  assert (Rm : rdy x (remask (w :: fut) (c :: cs)) = true) by (now rewrite remask_rdy).
  destruct (remask (w :: fut) (c :: cs)) as [|p ps] eqn:Ep.
  { exfalso. cbn [remask] in Ep. destruct (_ && _) in Ep; discriminate. }
  cbn [shift pshift]. rewrite Rm. constructor.
  - unfold next_cell. cbn [c_v c_w c_m andb negb orb]. rewrite Hw. cbn [negb]. rewrite Rd. left. reflexivity.
  - pose proof (shift_set_run n x m cs Hn HL 1 c (flush pf c) (w :: fut)) as R'. rewrite Ep in R'. apply R'; auto.
    cbn [rem]. rewrite Hw, Hnb. lia.
Qed.

Lemma accept m x w fut (cs : list cell) : good m (Un 0) (w :: fut) cs -> length cs = L + 1 -> rdy x cs = true ->
  1 <= nb w <= B -> (w_l w = true -> F <= m * B + nb w) ->
  let s' := shift B F true (w_l w) (nb w) 1 (mk_c true w (din_mask B F (w_l w) (nb w))) false x cs in
  good (if w_l w then 0 else S m) (Un 0) fut s' /\
  stream cs (w :: fut) = (if leaves x cs then firstn 1 (stream cs (w :: fut)) else []) ++ stream s' fut.
Proof.
  intros G Hlen Rd Hn Hm s'.
  assert (Hne : exists c cs', cs = c :: cs') by (destruct cs; [cbn in Hlen; lia|eauto]).
  destruct (w_l w) eqn:Ew.
  - set (din := mk_c true w (din_mask B F true (nb w))).
    assert (E : Forall2 ceq s' (pshift x din (remask (w :: fut) cs))).
    { apply (shift_set _ _ m); auto; [lia|]. apply L_le. specialize (Hm eq_refl). nia. }
    assert (Gd : good 0 (Un 0) fut (din :: remask (w :: fut) cs)).
    { split.
      - unfold okc. cbn. rewrite Ew. split; [|intros u [= <-]; reflexivity].
        replace L with (L - 0) by lia. rewrite range_fmask by lia. reflexivity.
      - unfold nxt, push. cbn. rewrite Ew. exact (remask_good _ _ _ _ G). }
    rewrite <- (remask_rdy x cs (w :: fut)) in Rd. split.
    + apply (ceq_good _ _ _ E). apply pshift_good; assumption.
    + rewrite (ceq_stream _ _ E). pose proof (pshift_stream x (remask (w :: fut) cs) fut din Rd) as Hs.
      cbn [stream] in Hs. unfold push in Hs. cbn [c_v din c_w] in Hs. rewrite remask_stream in Hs.
      replace (leaves x (din :: remask (w :: fut) cs)) with (leaves x cs) in Hs; [exact Hs|].
      rewrite <- (remask_leaves x cs (w :: fut)). destruct Hne as (c & cs' & ->). cbn [remask]. destruct (_ && _); symmetry; apply leaves_cons.
  - set (din := mk_c true w (zeros B)).
    assert (Gd : good (S m) (Un 0) fut (din :: cs)).
    { split.
      - unfold okc. cbn. rewrite Ew. reflexivity.
      - unfold nxt, push. cbn. rewrite Ew. now apply good_S. }
    assert (E : Forall2 ceq s' (pshift x din cs)) by exact (shift_in _ _ _ _ _ _ _ _ _ Gd).
    split.
    + apply (ceq_good _ _ _ E). apply pshift_good; assumption.
    + rewrite (ceq_stream _ _ E). pose proof (pshift_stream x cs fut din Rd) as Hs.
      cbn [stream] in Hs. unfold push in Hs. cbn [c_v din c_w] in Hs. destruct Hne as (c & cs' & ->). now rewrite leaves_cons in Hs.
Qed.

(** * The words which leave the registers *)
Definition emit (w : word) (q : list word) (sof : bool) : list word * list word * bool :=
  let m := fmask (rem (w :: q)) in
  let d1 := existsb id m in
  let m0 := nth 0 m false in
  let zl := d1 && m0 && negb sof && w_l w in
  let d0 := negb m0 || zl in
  (if d0 then [mk_w (w_d w) (map (fun x => fst x && negb (snd x) && negb zl) (combine (w_k w) m)) (d1 || nth 0 (fmask (rem q)) false)] else [],
   if d1 then [mk_w (w_d w) (map (fun x => fst x && snd x) (combine (w_k w) m)) (w_l w)] else [],
   if d1 && w_l w then false else if d0 then true else sof).

Lemma fold_notU cs : forall st, (forall u, st <> Un u) -> forall u, fold_left nxt cs st <> Un u.
Proof.
  induction cs as [|c cs IH]; intros st Hst; [exact Hst|]. cbn. apply IH. intros u. unfold nxt. destruct (c_v c); [destruct (w_l (c_w c))|]; try discriminate.
  destruct st; try discriminate. now destruct (Hst u0).
Qed.
Lemma fold_U cs : forall a u acc, fold_left nxt cs (Un a) = Un u ->
  u = a + length cs /\ rem (stream cs acc) = length cs * B + rem acc /\ fold_left flush cs false = false.
Proof.
  induction cs as [|c cs IH]; intros a u acc E; cbn in E |- *.
  - injection E as <-. auto.
  - unfold nxt at 2 in E. unfold flush at 2, push. destruct (c_v c); [destruct (w_l (c_w c)) eqn:El|]; [exfalso; revert E; apply fold_notU; discriminate| |exfalso; revert E; apply fold_notU; discriminate].
    destruct (IH _ _ (c_w c :: acc) E) as (-> & Hr & Hf). rewrite Hr. cbn [rem]. rewrite El. repeat split; [lia|lia|exact Hf].
Qed.

Definition ok_nb (w : word) : Prop := 1 <= nb w <= B.
Lemma rem_pos q : Forall ok_nb q -> q <> [] -> 1 <= rem q.
Proof. intros Hq Hn. destruct q as [|w q]; [congruence|]. inversion Hq as [|? ? Hw]; subst. cbn. unfold ok_nb in Hw. destruct (w_l w); lia. Qed.

Lemma out_masks m fut cs p o : good m (Un 0) fut (cs ++ [p; o]) -> length (cs ++ [p; o]) = L + 1 -> c_v o = true ->
  Forall ok_nb (stream (cs ++ [p; o]) fut) -> (flush_all (cs ++ [p; o]) = true \/ fut <> []) -> (fut <> [] -> 1 <= rem fut) ->
  stream (cs ++ [p; o]) fut = c_w o :: push (stream cs fut) p /\
  c_m o = fmask (rem (c_w o :: push (stream cs fut) p)) /\
  existsb id (c_m o) || (c_v p && nth 0 (c_m p) false) = existsb id (c_m o) || nth 0 (fmask (rem (push (stream cs fut) p))) false.
Proof.
  intros G Hlen Ho Hok Hen Hfut. rewrite stream_app in *. cbn [stream] in *. unfold push at 1 in Hok. unfold push at 1. rewrite Ho in *.
  split; [reflexivity|]. apply good_app in G. destruct G as [_ (Gp & Go & _)].
  set (st := fold_left nxt cs (Un 0)) in *. unfold okc in Go at 1. rewrite Ho in Go.
  destruct (w_l (c_w o)) eqn:El.
  - destruct Go as [Gm _]. split; [exact Gm|]. rewrite Gm. cbn [rem]. rewrite El. inversion Hok as [|? ? Hw]; subst. unfold ok_nb in Hw.
    rewrite existsb_fmask by lia. rewrite (proj2 (Nat.ltb_lt _ _)) by lia. reflexivity.
  - unfold okc in Gp. unfold nxt, push in *. rewrite app_length in Hlen. cbn [length] in Hlen.
    destruct (c_v p) eqn:Ep; [destruct (w_l (c_w p)) eqn:Elp|destruct Go].
    + destruct Gp as [Gp _]. split; [exact Go|]. rewrite Gp. cbn [rem]. reflexivity.
    + destruct st eqn:Est; [| |destruct Gp].
      * (* the frame is not complete *)
        pose proof (fold_U cs 0 u fut Est) as (Hu & Hr & Hfl).
        assert (Hne : fut <> []).
        { destruct Hen as [Hen|]; [|assumption]. exfalso. unfold flush_all in Hen. rewrite fold_left_app, Hfl in Hen. cbn in Hen. unfold flush in Hen.
          rewrite Elp, El, !andb_false_r in Hen. discriminate. }
        specialize (Hfut Hne). pose proof L_ge. pose proof L_pos.
        assert (Hlc : length cs = L - 1) by lia. rewrite Hlc in Hr.
        assert (E1 : rem (c_w p :: stream cs fut) = L * B + rem fut).
        { cbn [rem]. rewrite Elp, Hr. replace L with (S (L - 1)) at 2 by lia. cbn. lia. }
        assert (E2 : rem (c_w o :: c_w p :: stream cs fut) = B + L * B + rem fut).
        { change (rem (c_w o :: c_w p :: stream cs fut)) with (if w_l (c_w o) then nb (c_w o) else B + rem (c_w p :: stream cs fut)). rewrite El, E1. lia. }
        split; [rewrite Go, E2; symmetry; apply fmask_zeros; lia|]. f_equal. rewrite Gp, E1, nth_fmask.
        rewrite (proj2 (Nat.leb_gt _ _)) by lia. rewrite andb_false_r. unfold zeros. now rewrite nth_repeat.
      * split; [exact Go|]. rewrite Gp. reflexivity.
Qed.

Lemma shift_stuck dv set n x (cs : list cell) : forall i p pf, rdy x cs = false -> shift B F dv set n i p pf x cs = cs.
Proof.
  induction cs as [|c cs IH]; intros i p pf Hr; [reflexivity|]. cbn [shift]. unfold next_cell. rewrite Hr. cbn in Hr. apply orb_false_iff in Hr.
  rewrite IH by tauto. reflexivity.
Qed.
Lemma leaves_snoc x cs (o : cell) : leaves x (cs ++ [o]) = c_v o && x.
Proof. unfold leaves. rewrite rev_app_distr. reflexivity. Qed.

(** words of the input; m: number of words of the frame which are before *)
Fixpoint wfs (m : nat) (q : list word) : Prop :=
  match q with
  | [] => True
  | w :: q' => ok_nb w /\ if w_l w then F <= m * B + nb w /\ wfs 0 q' else wfs (S m) q'
  end.
Record Inv (m : nat) (s : fs_state byte) (fut : list word) : Prop := {
  inv_len : length (fs_regs s) = L + 1;
  inv_good : good m (Un 0) fut (fs_regs s);
  inv_ok : Forall ok_nb (stream (fs_regs s) fut);
  inv_wf : wfs m fut }.

Definition out0 (i : fs_in byte) (o : fs_out byte) : list word := if o0_v o && i_r0 i then [o0_w o] else [].
Definition out1 (i : fs_in byte) (o : fs_out byte) : list word := if o1_v o && i_r1 i then [o1_w o] else [].

Lemma two_last (l : list cell) : 2 <= length l -> exists cs p o, l = cs ++ [p; o].
Proof.
  intros Hl. destruct (rev l) as [|o [|p r]] eqn:E; apply (f_equal (@rev _)) in E; rewrite rev_involutive in E; subst l; cbn in Hl; try lia.
  exists (rev r), p, o. cbn. now rewrite <- app_assoc.
Qed.
Lemma stream_suffix cs : forall acc, exists a, stream cs acc = a ++ acc.
Proof.
  induction cs as [|c cs IH]; intros acc; [exists []; reflexivity|]. cbn. destruct (IH (push acc c)) as [a ->]. unfold push.
  destruct (c_v c); [exists (a ++ [c_w c]); now rewrite <- app_assoc|eauto].
Qed.

Lemma step_sim m s fut i : Inv m s fut -> let s' := fst (step s i) in let o := snd (step s i) in
  (i_v i = true -> o_rd o = true -> exists fut', fut = i_w i :: fut') ->
  let fut' := if i_v i && o_rd o then tl fut else fut in
  exists m', Inv m' s' fut' /\
    ((out0 i o = [] /\ out1 i o = [] /\ stream (fs_regs s') fut' = stream (fs_regs s) fut /\ fs_sof s' = fs_sof s) \/
     (exists w q', stream (fs_regs s) fut = w :: q' /\ stream (fs_regs s') fut' = q' /\ emit w q' (fs_sof s) = (out0 i o, out1 i o, fs_sof s'))).
Proof.
  intros [Hlen G Hok Hwf]. destruct s as [regs sof]. cbn [fs_regs fs_sof] in *. pose proof L_pos.
  destruct (two_last regs ltac:(lia)) as (cs & p & oc & Er).
  unfold step. cbn [fs_regs fs_sof fst snd].
  set (z := mk_c false (i_w i) (zeros B)).
  replace (last regs z) with oc by (rewrite Er; change [p; oc] with ([p] ++ [oc]); now rewrite app_assoc, last_last).
  replace (last (removelast regs) z) with p by (rewrite Er; change [p; oc] with ([p] ++ [oc]); now rewrite app_assoc, removelast_last, last_last).
  set (d1 := existsb id (c_m oc)). set (m0 := nth 0 (c_m oc) false).
  set (zl := d1 && m0 && negb sof && c_v oc && w_l (c_w oc)). set (d0 := negb m0 || zl).
  set (en := i_v i || flush_all regs).
  set (x := (i_r0 i || negb d0) && (i_r1 i || negb d1)).
  set (sh := shift _ _ _ _ _ _ _ _ _ _). unfold out0, out1. cbn [fst snd fs_regs fs_sof o_rd o0_v o0_w o1_v o1_w].
  intros Hin.
  set (fire := c_v oc && x && en).
  assert (F0 : c_v oc && d0 && en && (negb d1 || i_r1 i) && i_r0 i = fire && d0)
    by (unfold fire, x; destruct (c_v oc), d0, d1, en, (i_r0 i), (i_r1 i); reflexivity).
  assert (F1 : c_v oc && d1 && en && (negb d0 || i_r0 i) && i_r1 i = fire && d1)
    by (unfold fire, x; destruct (c_v oc), d0, d1, en, (i_r0 i), (i_r1 i); reflexivity).
  rewrite F0, F1. clear F0 F1.
  set (fut' := if i_v i && rdy x regs then tl fut else fut) in *.
  (* the registers *)
  assert (Reg : exists m', good m' (Un 0) fut' sh /\ wfs m' fut' /\
    (fire = false -> stream sh fut' = stream regs fut) /\ (fire = true -> stream regs fut = firstn 1 (stream regs fut) ++ stream sh fut')).
  { assert (Lv : leaves x regs = c_v oc && x) by (rewrite Er; change [p; oc] with ([p] ++ [oc]); rewrite app_assoc; apply leaves_snoc).
    destruct (i_v i) eqn:Ei.
    - destruct (rdy x regs) eqn:Rd.
      + destruct (Hin eq_refl eq_refl) as [f ->]. unfold fut'. cbn [andb tl]. destruct Hwf as [Hw Hwf].
        assert (Hm : w_l (i_w i) = true -> F <= m * B + nb (i_w i)) by (intros E; rewrite E in Hwf; tauto).
        destruct (accept m x (i_w i) f regs G Hlen Rd Hw Hm) as [G' S'].
        exists (if w_l (i_w i) then 0 else S m).
        assert (Esh : sh = shift B F true (w_l (i_w i)) (nb (i_w i)) 1 (mk_c true (i_w i) (din_mask B F (w_l (i_w i)) (nb (i_w i)))) false x regs) by reflexivity.
        rewrite Esh. split; [exact G'|]. split; [destruct (w_l (i_w i)); tauto|]. rewrite Lv in S'. unfold fire, en. cbn [orb]. rewrite andb_true_r.
        split; intros Hf; rewrite Hf in S'; [symmetry; exact S'|exact S'].
      + exists m. unfold fut'. cbn [andb]. unfold sh. rewrite shift_stuck by exact Rd. split; [exact G|]. split; [exact Hwf|].
        apply leaves_rdy in Rd. rewrite Lv in Rd. unfold fire. rewrite Rd. split; [reflexivity|discriminate].
    - exists m. unfold fut'. cbn [andb]. unfold sh. cbn [andb].
      destruct (idle_shift (last_bytes B (w_k (i_w i))) x regs (mk_c false (i_w i) (din_mask B F false (last_bytes B (w_k (i_w i))))) m fut 1 (Un 0) G)
        as (cs' & [[Hf ->]|(Hf & E & G' & S')]).
      + split; [exact G|]. split; [exact Hwf|]. unfold fire, en, flush_all. rewrite Hf, andb_false_r. split; [reflexivity|discriminate].
      + split; [exact (ceq_good _ _ _ E _ _ G')|]. split; [exact Hwf|]. rewrite (ceq_stream _ _ E). unfold fire, en, flush_all. rewrite Hf, orb_true_r, andb_true_r.
        rewrite Lv in S'. split; intros Hfi; rewrite Hfi in S'; [symmetry; exact S'|exact S']. }
  destruct Reg as (m' & G' & Hwf' & S0 & S1).
  assert (Hok' : Forall ok_nb (stream sh fut')).
  { destruct fire; [|rewrite S0 by reflexivity; exact Hok]. specialize (S1 eq_refl). rewrite S1 in Hok. apply Forall_app in Hok. tauto. }
  exists m'. split; [constructor; auto; cbn [fs_regs]; unfold sh; now rewrite shift_length|].
  destruct fire eqn:Ef.
  - (* a word leaves *)
    right. clear S0. specialize (S1 eq_refl). unfold fire in Ef. apply andb_true_iff in Ef. destruct Ef as [Ef Een]. apply andb_true_iff in Ef. destruct Ef as [Eo Ex].
    assert (Hfr : fut <> [] -> 1 <= rem fut).
    { intros Hne. apply rem_pos; [|exact Hne]. destruct (stream_suffix regs fut) as [a Ha]. rewrite Ha in Hok. apply Forall_app in Hok. tauto. }
    assert (Hen : flush_all regs = true \/ fut <> []).
    { unfold en in Een. destruct (i_v i); [|left; exact Een]. right. destruct (rdy x regs) eqn:Rd.
      - destruct (Hin eq_refl eq_refl) as [f ->]. discriminate.
      - apply leaves_rdy in Rd. revert Rd. rewrite Er. change [p; oc] with ([p] ++ [oc]). rewrite app_assoc, leaves_snoc, Eo, Ex. discriminate. }
    rewrite Er in G, Hlen, Hok, Hen. destruct (out_masks m fut cs p oc G Hlen Eo Hok Hen Hfr) as (Sq & Em & El).
    rewrite <- Er in Sq. exists (c_w oc), (push (stream cs fut) p). split; [exact Sq|]. split.
    + rewrite Sq in S1. cbn in S1. injection S1 as S1. symmetry. exact S1.
    + unfold emit. rewrite <- Em. fold d1 m0.
      assert (Ez : d1 && m0 && negb sof && w_l (c_w oc) = zl) by (unfold zl; rewrite Eo, andb_true_r; reflexivity).
      rewrite Ez. fold d0. fold d1 in El. rewrite El. cbn [andb]. reflexivity.
  - left. cbn [andb]. split; [reflexivity|]. split; [reflexivity|]. split; [now apply S0|reflexivity].
Qed.

(** * Bytes of the frames *)
Fixpoint emits (n : nat) (q : list word) (sof : bool) : list word * list word * bool :=
  match n, q with
  | S n', w :: q' => let '(a0, a1, s1) := emit w q' sof in let '(b0, b1, s2) := emits n' q' s1 in (a0 ++ b0, a1 ++ b1, s2)
  | _, _ => ([], [], sof)
  end.
Lemma emits_app a b : forall q sof, emits (a + b) q sof =
  let '(a0, a1, s1) := emits a q sof in let '(b0, b1, s2) := emits b (skipn a q) s1 in (a0 ++ b0, a1 ++ b1, s2).
Proof.
  induction a as [|a IH]; intros q sof.
  - cbn. destruct (emits b q sof) as [[? ?] ?]. reflexivity.
  - destruct q as [|w q].
    + cbn. destruct b; reflexivity.
    + cbn [emits skipn plus]. destruct (emit w q sof) as [[a0 a1] s1]. rewrite IH. destruct (emits a q s1) as [[c0 c1] s2].
      destruct (emits b (skipn a q) s2) as [[? ?] ?]. now rewrite !app_assoc.
Qed.

Lemma frames_app a : forall acc b, frames (byte := byte) acc (a ++ b) = frames acc a ++ frames (rest acc a) b.
Proof. induction a as [|w a IH]; intros acc b; [reflexivity|]. cbn. destruct (w_l w); rewrite IH; reflexivity. Qed.
Lemma rest_app a : forall acc b, rest (byte := byte) acc (a ++ b) = rest (rest acc a) b.
Proof. induction a as [|w a IH]; intros acc b; [reflexivity|]. cbn. apply IH. Qed.
Lemma frames_none a : forall acc, Forall (fun w : word => w_l w = false) a ->
  frames acc a = [] /\ rest acc a = acc ++ concat (map bytes a).
Proof.
  induction a as [|w a IH]; intros acc Ha; cbn; [now rewrite app_nil_r|]. inversion Ha as [|? ? Hw Ha']; subst. rewrite Hw.
  destruct (IH (acc ++ bytes w) Ha') as [-> ->]. now rewrite app_assoc.
Qed.
Lemma frames_nil a : forall acc, frames (byte := byte) acc a = [] -> exists c, rest acc a = acc ++ c.
Proof.
  induction a as [|w a IH]; intros acc Ha; cbn in *; [exists []; now rewrite app_nil_r|]. destruct (w_l w); [discriminate|].
  destruct (IH _ Ha) as [c ->]. exists (bytes w ++ c). now rewrite app_assoc.
Qed.
Lemma frames_head a : forall acc g l, frames (byte := byte) acc a = g :: l -> prefix acc g.
Proof.
  induction a as [|w a IH]; intros acc g l Ha; cbn in *; [discriminate|]. destruct (w_l w).
  - injection Ha as <- _. eexists. reflexivity.
  - destruct (IH _ _ _ Ha) as [c ->]. exists (bytes w ++ c). now rewrite app_assoc.
Qed.
(** a part of the words of complete frames *)
Lemma part_sent a b fs next : frames [] (a ++ b) = fs -> rest [] (a ++ b) = [] -> exists n, sent_frames (byte := byte) a n fs next.
Proof.
  intros Hf Hr. exists (length (frames [] a)). rewrite frames_app in Hf. rewrite rest_app in Hr. unfold sent_frames. rewrite <- Hf.
  split; [rewrite app_length; lia|]. split.
  - rewrite firstn_app, Nat.sub_diag, firstn_all. cbn. now rewrite app_nil_r.
  - rewrite app_nth2, Nat.sub_diag by lia. destruct (frames (rest [] a) b) as [|g l] eqn:E; cbn [nth].
    + destruct (frames_nil _ _ E) as [c Hc]. rewrite Hr in Hc. symmetry in Hc. apply app_eq_nil in Hc. rewrite (proj1 Hc). exists next. reflexivity.
    + exact (frames_head _ _ _ _ E).
Qed.

(** bytes of masked words *)
Lemma range_bytes c n (d : list byte) : forall a,
  map fst (filter snd (combine d (map (fun b => (c <=? b) && (b <? n)) (seq a (length d))))) = skipn (c - a) (firstn (n - a) d).
Proof.
  induction d as [|x d IH]; intros a; cbn [length seq map combine filter].
  - now rewrite firstn_nil, skipn_nil.
  - cbn [snd]. destruct (Nat.leb_spec n a) as [Hn|Hn].
    + rewrite (proj2 (Nat.ltb_ge a n)) by lia. rewrite andb_false_r, IH. replace (n - a) with 0 by lia. replace (n - S a) with 0 by lia.
      cbn. now rewrite !skipn_nil.
    + rewrite (proj2 (Nat.ltb_lt a n)) by lia. rewrite andb_true_r. replace (n - a) with (S (n - S a)) by lia. cbn [firstn].
      destruct (Nat.leb_spec c a) as [Hc|Hc].
      * cbn [map fst]. rewrite IH. replace (c - a) with 0 by lia. replace (c - S a) with 0 by lia. reflexivity.
      * rewrite IH. replace (c - a) with (S (c - S a)) by lia. reflexivity.
Qed.
Lemma keep_seq n N : n <= N -> repeat true n ++ repeat false (N - n) = map (fun b => b <? n) (seq 0 N).
Proof.
  intros Hn. apply (nth_ext _ _ false false); [rewrite app_length, !repeat_length, map_length, seq_length; lia|].
  intros b Hb. rewrite app_length, !repeat_length in Hb. rewrite nth_map_seq. rewrite (proj2 (Nat.ltb_lt b N)) by lia. cbn [andb].
  destruct (Nat.ltb_spec b n).
  - rewrite app_nth1 by (now rewrite repeat_length). rewrite (nth_indep _ false true) by (now rewrite repeat_length). apply nth_repeat.
  - rewrite app_nth2 by (rewrite repeat_length; lia). rewrite repeat_length. apply nth_repeat.
Qed.
Lemma combine_map {A X Y} (f : A -> X) (g : A -> Y) l : combine (map f l) (map g l) = map (fun a => (f a, g a)) l.
Proof. induction l; cbn; congruence. Qed.
Lemma ok_word w : word_ok B w -> ok_nb w /\ w_k w = map (fun b => b <? nb w) (seq 0 B) /\ (w_l w = false -> nb w = B) /\ length (w_d w) = B.
Proof.
  intros (Hd & n & Hn & Hk & Hf). unfold ok_nb, nb. rewrite Hk, last_bytes_ok by exact Hn. rewrite <- keep_seq by lia. tauto.
Qed.
Lemma bytes_ok w : word_ok B w -> bytes w = firstn (nb w) (w_d w).
Proof.
  intros Hw. destruct (ok_word w Hw) as (_ & Hk & _ & Hd). unfold bytes. rewrite Hk, <- Hd.
  pose proof (range_bytes 0 (nb w) (w_d w) 0) as Hr. cbn [skipn Nat.leb andb] in Hr. rewrite !Nat.sub_0_r in Hr. exact Hr.
Qed.
Lemma bytes_len w : word_ok B w -> length (bytes w) = nb w.
Proof. intros Hw. rewrite bytes_ok by exact Hw. destruct (ok_word w Hw) as (Hn & _ & _ & Hd). unfold ok_nb in Hn. rewrite firstn_length. lia. Qed.
Lemma bytes_masked w (g : nat -> bool -> bool) c n l r : word_ok B w ->
  (forall b, b < B -> g b ((r <=? b + F) && (b <? r)) && (b <? nb w) = (c <=? b) && (b <? n)) ->
  bytes (mk_w (w_d w) (map (fun b => g b ((r <=? b + F) && (b <? r)) && (b <? nb w)) (seq 0 B)) l) = skipn c (firstn n (w_d w)).
Proof.
  intros Hw Hg. destruct (ok_word w Hw) as (_ & Hk & _ & Hd). unfold bytes. cbn [w_d w_k].
  rewrite (map_ext_in _ (fun b => (c <=? b) && (b <? n))) by (intros b Hb; apply in_seq in Hb; apply Hg; lia).
  rewrite <- Hd. rewrite range_bytes, !Nat.sub_0_r. reflexivity.
Qed.
Lemma bytes_foot w l r : word_ok B w -> nb w <= r -> (w_l w = true -> r = nb w) ->
  bytes (mk_w (w_d w) (map (fun x => fst x && snd x) (combine (w_k w) (fmask r))) l) = skipn (r - F) (bytes w).
Proof.
  intros Hw Hr Hl. destruct (ok_word w Hw) as (Hn & Hk & Hf & Hd). rewrite Hk at 1. unfold fmask. rewrite combine_map, map_map. cbn [fst snd].
  rewrite (bytes_ok w Hw). rewrite <- (bytes_masked w (fun _ m => m) (r - F) (nb w) l r Hw).
  - f_equal. f_equal. apply map_ext. intros b. apply andb_comm.
  - intros b Hb. destruct (Nat.leb_spec r (b + F)), (Nat.leb_spec (r - F) b), (Nat.ltb_spec b (nb w)), (Nat.ltb_spec b r); cbn; try reflexivity; lia.
Qed.
Lemma bytes_data w l r : word_ok B w -> nb w <= r ->
  bytes (mk_w (w_d w) (map (fun x => fst x && negb (snd x) && negb false) (combine (w_k w) (fmask r))) l) = firstn (r - F) (bytes w).
Proof.
  intros Hw Hr. destruct (ok_word w Hw) as (Hn & Hk & Hf & Hd). rewrite Hk at 1. unfold fmask. rewrite combine_map, map_map. cbn [fst snd negb].
  rewrite (bytes_ok w Hw), firstn_firstn. change (firstn (Nat.min (r - F) (nb w)) (w_d w)) with (skipn 0 (firstn (Nat.min (r - F) (nb w)) (w_d w))). rewrite <- (bytes_masked w (fun _ m => negb m) 0 (Nat.min (r - F) (nb w)) l r Hw).
  - f_equal. f_equal. apply map_ext. intros b. rewrite andb_true_r. apply andb_comm.
  - intros b Hb. destruct (Nat.leb_spec r (b + F)), (Nat.leb_spec 0 b), (Nat.ltb_spec b (nb w)), (Nat.ltb_spec b r), (Nat.ltb_spec b (Nat.min (r - F) (nb w))); cbn; try reflexivity; lia.
Qed.
Lemma bytes_zero (w : word) l r : word_ok B w ->
  bytes (mk_w (w_d w) (map (fun x => fst x && negb (snd x) && negb true) (combine (w_k w) (fmask r))) l) = [].
Proof.
  intros Hw. destruct (ok_word w Hw) as (Hn & Hk & Hf & Hd). rewrite Hk at 1. unfold fmask. rewrite combine_map, map_map. cbn [fst snd negb].
  transitivity (skipn 0 (firstn 0 (w_d w))); [|reflexivity]. rewrite <- (bytes_masked w (fun _ m => false) 0 0 l r Hw).
  - f_equal. f_equal. apply map_ext. intros b. now rewrite andb_false_r.
  - intros b Hb. reflexivity.
Qed.

(** one frame *)
Definition nonlast (ws : list word) : Prop := Forall (fun w => w_l w = false) ws.
Lemma emits_frame lw q2 : w_l lw = true -> word_ok B lw -> forall body sof a0 a1, nonlast body -> Forall (word_ok B) body ->
  let W := body ++ [lw] in let bs := concat (map bytes W) in let R := rem (W ++ q2) in
  length bs = R /\ exists o0 o1, emits (length W) (W ++ q2) sof = (o0, o1, false) /\
  frames a1 o1 = [a1 ++ skipn (R - F) bs] /\ rest a1 o1 = [] /\
  (F < R \/ sof = false -> frames a0 o0 = [a0 ++ firstn (R - F) bs] /\ rest a0 o0 = []) /\
  (R <= F -> sof = true -> o0 = []).
Proof.
  intros Hl Hlw. destruct (ok_word lw Hlw) as (Hn & Hk & _ & Hd). unfold ok_nb in Hn.
  induction body as [|w body IH]; intros sof a0 a1 Hb Hok W bs R.
  - (* the last word *)
    assert (HR : R = nb lw) by (unfold R, W; cbn; now rewrite Hl).
    assert (Hbs : bs = bytes lw) by (unfold bs, W; cbn; apply app_nil_r).
    rewrite Hbs, HR. split; [now apply bytes_len|].
    unfold W. cbn [app length emits]. unfold emit. change (rem (lw :: q2)) with R. rewrite HR. rewrite existsb_fmask by lia.
    rewrite (proj2 (Nat.ltb_lt _ _)) by lia. rewrite nth_fmask. rewrite !(proj2 (Nat.ltb_lt 0 _)) by lia. rewrite Hl. cbn [andb orb].
    rewrite Nat.add_0_l, !andb_true_r.
    destruct (Nat.leb_spec (nb lw) F) as [Hc|Hc].
    + destruct sof; cbn [andb negb orb].
      * eexists _, _. split; [reflexivity|]. cbn [app frames rest w_l]. rewrite bytes_foot by auto. split; [reflexivity|]. split; [reflexivity|]. split; [intros [?|?]; [lia|discriminate]|reflexivity].
      * eexists _, _. split; [reflexivity|]. cbn [app frames rest w_l].
        pose proof (bytes_zero lw true (nb lw) Hlw) as Hz. cbn [negb] in Hz. rewrite Hz. rewrite bytes_foot by auto.
        replace (nb lw - F) with 0 by lia. cbn [firstn]. rewrite app_nil_r. repeat split; auto. discriminate.
    + cbn [andb negb orb]. eexists _, _. split; [reflexivity|]. cbn [app frames rest w_l].
      pose proof (bytes_data lw true (nb lw) Hlw ltac:(lia)) as Hz. cbn [negb] in Hz. rewrite Hz. rewrite bytes_foot by auto.
      repeat split; auto. lia.
  - inversion Hb as [|? ? Hwl Hb']; subst. inversion Hok as [|? ? Hw Hok']; subst.
    destruct (ok_word w Hw) as (Hnw & Hkw & Hfw & Hdw). unfold ok_nb in Hnw. specialize (Hfw Hwl).
    assert (Hlb : length (bytes w) = B) by (rewrite bytes_len by exact Hw; exact Hfw).
    set (R' := rem ((body ++ [lw]) ++ q2)). set (bs' := concat (map bytes (body ++ [lw]))).
    assert (HR : R = B + R') by (unfold R, W; cbn; now rewrite Hwl).
    assert (Hbs : bs = bytes w ++ bs') by reflexivity.
    assert (HR' : 1 <= R').
    { destruct (IH sof a0 a1 Hb' Hok') as (_ & _). unfold R'. clear - Hl Hn Hb' HB. destruct body as [|v body]; cbn; [rewrite Hl; lia|].
      inversion Hb' as [|? ? Hv]; subst. rewrite Hv. lia. }
    split; [rewrite Hbs, app_length, Hlb, HR; f_equal; apply (IH sof a0 a1 Hb' Hok')|].
    unfold W. cbn [app length emits]. unfold emit. change (rem (w :: (body ++ [lw]) ++ q2)) with R. fold R'.
    rewrite HR, existsb_fmask by lia. rewrite !nth_fmask. rewrite !(proj2 (Nat.ltb_lt 0 _)) by lia. rewrite Hwl, !andb_false_r, !orb_false_r, !Nat.add_0_l.
    cbn [andb]. rewrite !andb_true_r.
    destruct (Nat.leb_spec (B + R') F) as [Hc|Hc]; cbn [negb].
    + (* footer only *)
      rewrite (proj2 (Nat.ltb_lt _ _)) by lia. destruct (IH sof a0 (a1 ++ bytes w) Hb' Hok') as (_ & o0 & o1 & E & Hf1 & Hr1 & H0 & H0').
      fold R' in Hf1, H0, H0'. fold bs' in Hf1, H0. rewrite E. eexists _, _. split; [reflexivity|]. cbn [app frames rest w_l].
      rewrite bytes_foot by (auto; try lia; congruence). replace (B + R' - F) with 0 by lia. cbn [skipn].
      replace (R' - F) with 0 in * by lia. cbn [skipn firstn] in *. rewrite Hbs. split; [rewrite Hf1; now rewrite app_assoc|]. split; [exact Hr1|].
      split; [intros [?|?]; [lia|apply H0; auto]|intros _; apply H0'; lia].
    + (* data *)
      pose proof (fun l => bytes_data w l (B + R') Hw ltac:(lia)) as Hz. cbn [negb] in Hz.
      destruct (Nat.ltb_spec (B + R') (F + B)) as [Hd1|Hd1].
      * (* and the start of the footer *)
        destruct (IH true [] (a1 ++ skipn (B + R' - F) (bytes w)) Hb' Hok') as (_ & o0 & o1 & E & Hf1 & Hr1 & _ & H0').
        fold R' in Hf1, H0'. fold bs' in Hf1. rewrite E. rewrite (H0' ltac:(lia) eq_refl). eexists _, _. split; [reflexivity|]. cbn [app frames rest w_l orb].
        rewrite Hz. rewrite bytes_foot by (auto; try lia; congruence). rewrite Hf1, Hbs. replace (R' - F) with 0 by lia. cbn [skipn].
        rewrite skipn_app, firstn_app. replace (B + R' - F - length (bytes w)) with 0 by lia. cbn [skipn firstn]. rewrite app_nil_r, app_assoc.
        repeat split; auto. lia.
      * destruct (Nat.leb_spec R' F) as [He|He].
        -- (* the last word of data *)
           destruct (IH true [] a1 Hb' Hok') as (_ & o0 & o1 & E & Hf1 & Hr1 & _ & H0').
           fold R' in Hf1, H0'. fold bs' in Hf1. rewrite E. rewrite (H0' ltac:(lia) eq_refl). eexists _, _. split; [reflexivity|]. cbn [app frames rest w_l orb].
           rewrite Hz, Hf1, Hbs. rewrite skipn_app, firstn_app. rewrite (skipn_all2 (bytes w)) by lia. rewrite Hlb.
           replace (R' - F) with 0 by lia. replace (B + R' - F - B) with 0 by lia. cbn [skipn firstn app]. rewrite app_nil_r. repeat split; auto. lia.
        -- destruct (IH true (a0 ++ bytes w) a1 Hb' Hok') as (_ & o0 & o1 & E & Hf1 & Hr1 & H0 & _).
           fold R' in Hf1, H0. fold bs' in Hf1, H0. rewrite E. eexists _, _. split; [reflexivity|]. cbn [app frames rest w_l orb].
           rewrite Hz, Hf1, Hbs. rewrite skipn_app, firstn_app. rewrite (skipn_all2 (bytes w)), (firstn_all2 (bytes w)) by lia. rewrite Hlb.
           replace (B + R' - F - B) with (R' - F) by lia. cbn [app]. destruct (H0 (or_introl He)) as [Hf0 Hr0]. rewrite Hf0. rewrite app_assoc. repeat split; auto. lia.
Qed.

(** many frames *)
Definition frame_ok (W : list word) : Prop :=
  Forall (word_ok B) W /\ exists body lw, W = body ++ [lw] /\ nonlast body /\ w_l lw = true.
Definition wbytes (W : list word) : list byte := concat (map bytes W).
Lemma split_frames A : Forall (word_ok B) A -> exists Ws Wr, A = concat Ws ++ Wr /\ Forall frame_ok Ws /\ Forall (word_ok B) Wr /\ nonlast Wr.
Proof.
  induction A as [|w A IH]; intros Hok.
  - exists [], []. repeat split; constructor.
  - inversion Hok as [|? ? Hw Hok']; subst. destruct (IH Hok') as (Ws & Wr & -> & HWs & HWr & Hn).
    destruct (w_l w) eqn:El.
    + exists ([w] :: Ws), Wr. repeat split; auto. constructor; [|exact HWs]. split; [auto|]. exists [], w. repeat split; auto. constructor.
    + destruct Ws as [|W Ws].
      * exists [], (w :: Wr). repeat split; auto. constructor; auto.
      * inversion HWs as [|? ? HW HWs']; subst. exists ((w :: W) :: Ws), Wr. repeat split; auto. constructor; [|exact HWs'].
        destruct HW as (Ha & body & lw & -> & Hb & Hl). split; [constructor; auto|]. exists (w :: body), lw. repeat split; auto. constructor; auto.
Qed.
Lemma frames_frame W acc q : frame_ok W -> frames acc (W ++ q) = (acc ++ wbytes W) :: frames [] q /\ rest acc (W ++ q) = rest [] q.
Proof.
  intros (_ & body & lw & -> & Hb & Hl). rewrite <- app_assoc, frames_app, rest_app. destruct (frames_none body acc Hb) as [-> ->]. cbn. rewrite Hl.
  unfold wbytes. rewrite map_app, concat_app. cbn. rewrite app_nil_r, app_assoc. split; reflexivity.
Qed.
Lemma frames_concat Ws Wr : Forall frame_ok Ws -> nonlast Wr -> frames [] (concat Ws ++ Wr) = map wbytes Ws /\ rest [] (concat Ws ++ Wr) = wbytes Wr.
Proof.
  intros HWs Hr. induction HWs as [|W Ws HW _ IH].
  - cbn. destruct (frames_none Wr [] Hr) as [-> ->]. split; reflexivity.
  - cbn [concat]. rewrite <- app_assoc. destruct (frames_frame W [] (concat Ws ++ Wr) HW) as [-> ->]. destruct IH as [-> ->]. split; reflexivity.
Qed.
Lemma rem_frame W q : frame_ok W -> rem (W ++ q) = length (wbytes W).
Proof.
  intros (Ha & body & lw & -> & Hb & Hl). apply Forall_app in Ha. destruct Ha as [Ha1 Ha2]. inversion Ha2; subst.
  destruct (emits_frame lw q Hl ltac:(assumption) body false [] [] Hb Ha1) as [Hlen _]. symmetry. exact Hlen.
Qed.
Lemma emits_frames Ws q : Forall frame_ok Ws -> Forall (fun W => F <= length (wbytes W)) Ws -> exists o0 o1,
  emits (length (concat Ws)) (concat Ws ++ q) false = (o0, o1, false) /\
  frames [] o0 = map (data_of F) (map wbytes Ws) /\ rest [] o0 = [] /\ frames [] o1 = map (foot_of F) (map wbytes Ws) /\ rest [] o1 = [].
Proof.
  intros HWs HF'. induction HWs as [|W Ws HW _ IH]; cbn [concat].
  - exists [], []. cbn. auto.
  - inversion HF' as [|? ? HFW HF'']; subst. destruct (IH HF'') as (b0 & b1 & E & E1 & E2 & E3 & E4). pose proof (rem_frame W (concat Ws ++ q) HW) as HR.
    destruct HW as (Ha & body & lw & -> & Hb & Hl). apply Forall_app in Ha. destruct Ha as [Ha1 Ha2]. inversion Ha2; subst.
    destruct (emits_frame lw (concat Ws ++ q) Hl ltac:(assumption) body false [] [] Hb Ha1) as (_ & a0 & a1 & D & D1 & D2 & D3 & _).
    rewrite HR in D1, D3. change (concat (map bytes (body ++ [lw]))) with (wbytes (body ++ [lw])) in D1, D3.
    destruct (D3 (or_intror eq_refl)) as [D3' D4]. exists (a0 ++ b0), (a1 ++ b1).
    rewrite app_length, emits_app, <- app_assoc, D, skipn_app, skipn_all, Nat.sub_diag. cbn [skipn app]. rewrite E. split; [reflexivity|].
    rewrite !frames_app, !rest_app, D1, D2, D3', D4, E1, E2, E3, E4. cbn [app map]. unfold data_of at 2, foot_of at 2. auto.
Qed.
(** words of the frame which is not complete *)
Lemma emits_rest ext : F < rem ext -> forall Wr k sof, Forall (word_ok B) Wr -> nonlast Wr -> k <= length Wr -> exists o0 s',
  emits k (Wr ++ ext) sof = (o0, [], s') /\ nonlast o0 /\ map bytes o0 = map bytes (firstn k Wr).
Proof.
  intros Hx. induction Wr as [|w Wr IH]; intros k sof Hok Hn Hk.
  - cbn in Hk. replace k with 0 by lia. exists [], sof. repeat split. constructor.
  - destruct k as [|k]; [exists [], sof; repeat split; constructor|]. inversion Hok as [|? ? Hw Hok']; subst. inversion Hn as [|? ? Hl Hn']; subst.
    assert (HR : F < rem (Wr ++ ext)).
    { clear - Hx Hn' HB. induction Hn' as [|v Wr Hv _ IH]; [exact Hx|]. cbn. rewrite Hv. lia. }
    cbn [app emits]. unfold emit. cbn [rem]. rewrite Hl. rewrite existsb_fmask by lia. rewrite (proj2 (Nat.ltb_ge _ _)) by lia.
    rewrite !nth_fmask. rewrite (proj2 (Nat.leb_gt (B + _) _)), (proj2 (Nat.leb_gt (rem _) _)) by lia. rewrite !andb_false_r. cbn [andb orb negb].
    destruct (IH k true Hok' Hn' ltac:(cbn in Hk; lia)) as (o0 & s' & E & H1 & H2). rewrite E. eexists _, _. split; [reflexivity|].
    split; [constructor; [reflexivity|exact H1]|]. cbn [app map firstn]. f_equal; [|exact H2].
    destruct (ok_word w Hw) as (Hnw & _). unfold ok_nb in Hnw.
    pose proof (bytes_data w false (B + rem (Wr ++ ext)) Hw ltac:(lia)) as Hz. cbn [negb] in Hz. rewrite Hz.
    apply firstn_all2. rewrite bytes_len by exact Hw. lia.
Qed.

(** * Executions *)
Lemma accepted_cons (i : fs_in byte) o t : accepted ((i, o) :: t) = (if i_v i && o_rd o then [i_w i] else []) ++ accepted t.
Proof. unfold accepted. cbn. destruct (i_v i && o_rd o); reflexivity. Qed.
Lemma sent0_cons (i : fs_in byte) o t : sent0 ((i, o) :: t) = out0 i o ++ sent0 t.
Proof. unfold sent0, out0. cbn. destruct (o0_v o && i_r0 i); reflexivity. Qed.
Lemma sent1_cons (i : fs_in byte) o t : sent1 ((i, o) :: t) = out1 i o ++ sent1 t.
Proof. unfold sent1, out1. cbn. destruct (o1_v o && i_r1 i); reflexivity. Qed.

Lemma trace_sim ext is : forall m s, Inv m s (accepted (trace step s is) ++ ext) -> exists n m',
  let t := trace step s is in let q := stream (fs_regs s) (accepted t ++ ext) in let s' := final step s is in
  emits n q (fs_sof s) = (sent0 t, sent1 t, fs_sof s') /\ Inv m' s' ext /\ n <= length q /\ q = firstn n q ++ stream (fs_regs s') ext.
Proof.
  induction is as [|i is IH]; intros m s Hinv.
  - exists 0, m. cbn. repeat split; auto; try apply Hinv. lia.
  - cbv zeta. rewrite trace_cons in *. rewrite final_cons. rewrite accepted_cons in *. rewrite sent0_cons, sent1_cons.
    set (s' := fst (step s i)) in *. set (o := snd (step s i)) in *. set (t := trace step s' is) in *.
    destruct (step_sim m s _ i Hinv) as (m1 & Hinv1 & Hc).
    { fold o. intros -> ->. cbn. eauto. }
    fold s' o in Hinv1, Hc.
    assert (Ef : (if i_v i && o_rd o then tl (((if i_v i && o_rd o then [i_w i] else []) ++ accepted t) ++ ext)
      else ((if i_v i && o_rd o then [i_w i] else []) ++ accepted t) ++ ext) = accepted t ++ ext) by (destruct (i_v i && o_rd o); reflexivity).
    rewrite Ef in *. destruct (IH m1 s' Hinv1) as (n & m' & H1 & H2 & H4 & H3). fold t in H1, H2, H3, H4.
    destruct Hc as [(-> & -> & Hq & Hs)|(w & q' & Hq & Hq' & He)].
    + exists n, m'. cbn [app]. rewrite <- Hq, <- Hs. auto 6.
    + exists (S n), m'. rewrite Hq. cbn [emits firstn app]. rewrite He. rewrite <- Hq'. rewrite H1. split; [reflexivity|]. split; [exact H2|]. split; [cbn [length]; lia|].
      f_equal. exact H3.
Qed.

Lemma wfs_frames A ext m acc : Forall (word_ok B) A -> Forall (fun f => F <= length f) (frames acc A) -> length acc = m * B ->
  (forall m, wfs m ext) -> wfs m (A ++ ext).
Proof.
  revert m acc. induction A as [|w A IH]; intros m acc Hok HF' Hacc Hx; [apply Hx|]. inversion Hok as [|? ? Hw Hok']; subst.
  destruct (ok_word w Hw) as (Hn & _ & Hf & _). cbn [app wfs]. split; [exact Hn|]. cbn in HF'. destruct (w_l w).
  - inversion HF' as [|? ? H1 H2]; subst. rewrite app_length, bytes_len in H1 by exact Hw. split; [lia|]. apply (IH 0 []); auto.
  - apply (IH (S m) (acc ++ bytes w)); auto. rewrite app_length, bytes_len, Hf by auto. cbn. lia.
Qed.
Lemma init_inv ws fut : length ws = L + 1 -> wfs 0 fut -> Forall ok_nb fut -> Inv 0 (fs_init B ws) fut /\ stream (fs_regs (fs_init B ws)) fut = fut.
Proof.
  intros Hl Hf Hok. assert (Hs : forall l acc, stream (map (fun w => mk_c false w (zeros B)) l) acc = acc) by (induction l; cbn; auto).
  split; [|apply Hs]. constructor; cbn [fs_init fs_regs].
  - now rewrite map_length.
  - assert (Hh : forall l st acc, (st = Ho \/ st = Un 0) -> good 0 st acc (map (fun w => mk_c false w (zeros B)) l)).
    { induction l as [|w l IH]; intros st acc Hst; [exact I|]. cbn. split; [|apply IH; auto]. intros u ->. destruct Hst as [?|[= ->]]; [discriminate|reflexivity]. }
    apply Hh. now right.
  - rewrite Hs. exact Hok.
  - exact Hf.
Qed.

(** a possible rest of the input after the trace *)
Definition filler (w : word) : list word :=
  repeat (mk_w (w_d w) (repeat true B) false) (L + 1) ++ [mk_w (w_d w) (repeat true B) true].
Lemma nb_full (w : word) : w_k w = repeat true B -> nb w = B.
Proof. intros E. unfold nb. rewrite E. pose proof (last_bytes_ok B ltac:(lia)) as Hb. now rewrite Nat.sub_diag, app_nil_r in Hb. Qed.
Lemma filler_rem w : F < rem (filler w).
Proof.
  unfold filler. assert (Hn : forall n, rem (repeat (mk_w (w_d w) (repeat true B) false) n ++ [mk_w (w_d w) (repeat true B) true]) = n * B + B).
  { induction n; cbn [repeat app rem w_l]; [rewrite nb_full by reflexivity; lia|rewrite IHn; lia]. }
  rewrite Hn. pose proof L_ge. lia.
Qed.
Lemma filler_wf w m : wfs m (filler w).
Proof.
  unfold filler. assert (Hn : forall n m, F <= (n + m) * B -> wfs m (repeat (mk_w (w_d w) (repeat true B) false) n ++ [mk_w (w_d w) (repeat true B) true])).
  { induction n; intros m' Hm; cbn [repeat app wfs w_l].
    - unfold ok_nb. rewrite nb_full by reflexivity. repeat split; try lia.
    - unfold ok_nb. rewrite nb_full by reflexivity. split; [lia|]. apply IHn. replace (n + S m') with (S n + m') by lia. exact Hm. }
  apply Hn. pose proof L_ge. nia.
Qed.
Lemma filler_ok w : Forall ok_nb (filler w).
Proof.
  unfold filler. apply Forall_app. split; [apply Forall_forall; intros v Hv; apply repeat_spec in Hv; subst|constructor; [|constructor]];
  unfold ok_nb; rewrite nb_full by reflexivity; lia.
Qed.

Definition wf_in (A : list word) : Prop := Forall (word_ok B) A /\ Forall (fun f => F <= length f) (frames [] A).
(** the state after an execution and its outputs *)
Lemma run_sim ws is : length ws = L + 1 -> let t := trace step (fs_init B ws) is in wf_in (accepted t) ->
  exists Ws Wr ext n m', accepted t = concat Ws ++ Wr /\ Forall frame_ok Ws /\ Forall (word_ok B) Wr /\ nonlast Wr /\ (Wr <> [] -> F < rem ext) /\
   let s' := final step (fs_init B ws) is in
   emits n (accepted t ++ ext) false = (sent0 t, sent1 t, fs_sof s') /\ Inv m' s' ext /\ n <= length (accepted t ++ ext) /\ accepted t ++ ext = firstn n (accepted t ++ ext) ++ stream (fs_regs s') ext.
Proof.
  intros Hl t [Hok HF']. destruct (split_frames _ Hok) as (Ws & Wr & E & HWs & HWr & Hn).
  assert (Hx : exists ext, (Wr <> [] -> F < rem ext) /\ (forall m, wfs m ext) /\ Forall ok_nb ext).
  { destruct Wr as [|w Wr]; [exists []; split; [congruence|split; [exact (fun _ => I)|constructor]]|]. exists (filler w).
    split; [intros _; apply filler_rem|split; [apply filler_wf|apply filler_ok]]. }
  destruct Hx as (ext & X1 & X2 & X3).
  assert (Hinv : Inv 0 (fs_init B ws) (accepted t ++ ext) /\ stream (fs_regs (fs_init B ws)) (accepted t ++ ext) = accepted t ++ ext).
  { apply init_inv; [exact Hl| |].
    - apply (wfs_frames _ _ 0 []); auto.
    - apply Forall_app. split; [|exact X3]. revert Hok. apply Forall_impl. intros w Hw. apply (ok_word w Hw). }
  destruct Hinv as [Hinv Hst]. destruct (trace_sim ext is 0 _ Hinv) as (n & m' & H1 & H2 & H4 & H3). fold t in H1, H2, H3, H4. rewrite Hst in H1, H3, H4.
  exists Ws, Wr, ext, n, m'. repeat (split; [assumption|]). exact H3.
Qed.

Theorem fs_split ws is : length ws = L + 1 -> let t := trace step (fs_init B ws) is in
  Forall (word_ok B) (accepted t) -> Forall (fun f => F <= length f) (frames [] (accepted t)) ->
  let fs := frames [] (accepted t) in
  (exists n, sent_frames (sent0 t) n (map (data_of F) fs) (rest [] (accepted t))) /\
  (exists n, sent_frames (sent1 t) n (map (foot_of F) fs) []).
Proof.
  intros Hl t Hok HF' fs. destruct (run_sim ws is Hl (conj Hok HF')) as (Ws & Wr & ext & n & m' & EA & HWs & HWr & Hn & Hx & He & _ & Hnq & Hq). fold t in EA, He, Hnq, Hq.
  unfold fs in *. rewrite EA in *. destruct (frames_concat Ws Wr HWs Hn) as [Ef Er]. rewrite Ef, Er in *.
  assert (HFW : Forall (fun W => F <= length (wbytes W)) Ws) by (rewrite Forall_map in HF'; exact HF').
  destruct (emits_frames Ws (Wr ++ ext) HWs HFW) as (O0 & O1 & EO & A1 & A2 & A3 & A4). rewrite <- app_assoc in *.
  destruct (Nat.le_gt_cases n (length (concat Ws))) as [Hc|Hc].
  - replace (length (concat Ws)) with (n + (length (concat Ws) - n)) in EO by lia. rewrite emits_app, He in EO.
    destruct (emits (length (concat Ws) - n) _ _) as [[b0 b1] s2]. injection EO as E0 E1 _. subst O0 O1. split; eapply part_sent; eauto.
  - assert (Hnl : n - length (concat Ws) <= length Wr).
    { destruct (stream_suffix (fs_regs (final step (fs_init B ws) is)) ext) as [a Ha]. rewrite Ha in Hq. apply (f_equal (@length _)) in Hq.
      rewrite !app_length, firstn_length, !app_length in Hq. rewrite !app_length in Hnq. lia. }
    replace n with (length (concat Ws) + (n - length (concat Ws))) in He by lia. rewrite emits_app, EO, skipn_app, skipn_all, Nat.sub_diag in He. cbn [skipn app] in He.
    assert (Hx' : F < rem ext) by (apply Hx; intros ->; cbn in Hnl; lia).
    destruct (emits_rest ext Hx' Wr _ false HWr Hn Hnl) as (o0 & s' & E & N1 & N2). rewrite E in He. injection He as E0 E1 _.
    rewrite <- E0, <- E1, app_nil_r. split; exists (length Ws).
    + unfold sent_frames. rewrite frames_app, rest_app, A1, A2. destruct (frames_none o0 [] N1) as [-> ->]. rewrite !map_length.
      split; [lia|]. split; [rewrite firstn_all2 by (now rewrite !map_length); apply app_nil_r|].
      rewrite nth_overflow by (now rewrite !map_length). rewrite N2. cbn [app]. unfold wbytes.
      exists (concat (map bytes (skipn (n - length (concat Ws)) Wr))). rewrite <- concat_app, <- map_app, firstn_skipn. reflexivity.
    + unfold sent_frames. rewrite A3, A4, !map_length. split; [lia|]. split; [rewrite firstn_all2 by (now rewrite !map_length); reflexivity|].
      exists (nth (length Ws) (map (foot_of F) (map wbytes Ws)) []). reflexivity.
Qed.

(** * The end of the input: complete frames leave without other words *)
Definition idle (w : word) : fs_in byte := mk_i false w true true.
Lemma rdy_true (cs : list cell) : rdy true cs = true.
Proof. induction cs as [|c cs IH]; cbn; [reflexivity|]. rewrite IH. apply orb_true_r. Qed.
Lemma idle_noflush n (cs : list cell) : forall k i p, fold_left flush (firstn k cs) false = false ->
  fold_left flush (firstn (S k) (shift B F false false n i p false true cs)) false = false.
Proof.
  induction cs as [|c cs IH]; intros k i p Hk; [reflexivity|]. cbn [shift]. change (firstn (S k) (?a :: ?l)) with (a :: firstn k l). cbn [fold_left].
  unfold next_cell. rewrite rdy_true. rewrite andb_false_r. cbn [andb orb].
  destruct k as [|k].
  - cbn [firstn fold_left]. unfold flush. cbn [c_v c_w]. rewrite !orb_false_r. destruct (c_v c) eqn:Ec; [|destruct (false && _); reflexivity].
    cbn [andb]. destruct (w_l (c_w c)) eqn:El; cbn [andb]; [reflexivity|exact El].
  - cbn [firstn fold_left] in Hk. unfold flush at 2 in Hk. rewrite orb_false_r in Hk.
    destruct (c_v c && w_l (c_w c)) eqn:Ec.
    + exfalso. revert Hk. generalize (firstn k cs). intros l. assert (Hm : forall l : list cell, fold_left flush l true = true) by (induction l0 as [|d l0 IHl]; cbn; [reflexivity|unfold flush at 2; rewrite orb_true_r; auto]).
      rewrite Hm. discriminate.
    + unfold flush at 2. unfold flush at 2 3 4. rewrite Ec. cbn [orb c_v c_w]. rewrite Ec. cbn [orb]. apply IH. exact Hk.
Qed.
Lemma idle_regs s w : fs_regs (fst (step s (idle w))) =
  shift B F false false (last_bytes B (w_k w)) 1 (mk_c false w (din_mask B F false (last_bytes B (w_k w)))) false true (fs_regs s).
Proof. reflexivity. Qed.
Lemma idle_run ws : forall k s, fold_left flush (firstn k (fs_regs s)) false = false ->
  fold_left flush (firstn (length ws + k) (fs_regs (final step s (map idle ws)))) false = false.
Proof.
  induction ws as [|w ws IH]; intros k s Hk; [exact Hk|]. cbn [map length]. rewrite final_cons. replace (S (length ws) + k) with (length ws + S k) by lia.
  apply IH. rewrite idle_regs. now apply idle_noflush.
Qed.
Lemma stream_nonlast cs : fold_left flush cs false = false -> forall acc, exists a, stream cs acc = a ++ acc /\ nonlast a.
Proof.
  induction cs as [|c cs IH]; intros Hf acc; [exists []; split; [reflexivity|constructor]|]. cbn [fold_left] in Hf. unfold flush at 2 in Hf. rewrite orb_false_r in Hf.
  assert (Hm : forall l : list cell, fold_left flush l true = true) by (induction l as [|d l IHl]; cbn; [reflexivity|unfold flush at 2; rewrite orb_true_r; auto]).
  destruct (c_v c && w_l (c_w c)) eqn:Ec; [rewrite Hm in Hf; discriminate|]. cbn [stream]. destruct (IH Hf (push acc c)) as (a & -> & Ha). unfold push.
  destruct (c_v c); cbn in Ec; [|eauto]. exists (a ++ [c_w c]). split; [now rewrite <- app_assoc|]. apply Forall_app. split; [exact Ha|]. constructor; [exact Ec|constructor].
Qed.

Theorem fs_drained ws is ds : length ws = L + 1 -> L + 1 <= length ds -> let t := trace step (fs_init B ws) (is ++ map idle ds) in
  Forall (word_ok B) (accepted t) -> Forall (fun f => F <= length f) (frames [] (accepted t)) ->
  let fs := frames [] (accepted t) in
  frames [] (sent0 t) = map (data_of F) fs /\ frames [] (sent1 t) = map (foot_of F) fs /\ rest [] (sent1 t) = [].
Proof.
  intros Hl Hds t Hok HF' fs. destruct (run_sim ws _ Hl (conj Hok HF')) as (Ws & Wr & ext & n & m' & EA & HWs & HWr & Hn & Hx & He & Hinv & Hnq & Hq). fold t in EA, He, Hnq, Hq.
  assert (Hfl : fold_left flush (fs_regs (final step (fs_init B ws) (is ++ map idle ds))) false = false).
  { rewrite final_app. set (s1 := final step (fs_init B ws) is) in *. pose proof (idle_run ds 0 s1 eq_refl) as Hr.
    rewrite firstn_all2 in Hr; [exact Hr|]. pose proof (inv_len _ _ _ Hinv) as Hi. rewrite final_app in Hi. fold s1 in Hi. lia. }
  destruct (stream_nonlast _ Hfl ext) as (a & Ea & Hna). rewrite Ea in Hq.
  unfold fs in *. rewrite EA in *. destruct (frames_concat Ws Wr HWs Hn) as [Ef Er]. rewrite Ef in *. clear Er.
  assert (HFW : Forall (fun W => F <= length (wbytes W)) Ws) by (rewrite Forall_map in HF'; exact HF').
  destruct (emits_frames Ws (Wr ++ ext) HWs HFW) as (O0 & O1 & EO & A1 & A2 & A3 & A4).
  assert (Hge : length (concat Ws) <= n).
  { destruct (Nat.le_gt_cases (length (concat Ws)) n) as [|Hc]; [assumption|]. exfalso.
    rewrite firstn_app in Hq. replace (n - length (concat Ws ++ Wr)) with 0 in Hq by (rewrite app_length; lia). cbn [firstn] in Hq. rewrite app_nil_r, app_assoc in Hq.
    apply app_inv_tail in Hq.
    destruct (exists_last (l := Ws)) as (Ws' & W & EW); [intros ->; cbn in Hc; lia|].
    assert (HW : frame_ok W) by (rewrite EW in HWs; apply Forall_app in HWs; destruct HWs as [_ HWs]; inversion HWs; assumption).
    destruct HW as (_ & body & lw & EWb & _ & Hlw).
    assert (Ec : concat Ws = (concat Ws' ++ body) ++ [lw]) by (rewrite EW, concat_app; cbn; now rewrite app_nil_r, EWb, app_assoc).
    set (X := concat Ws' ++ body) in *. rewrite Ec in Hc. rewrite app_length in Hc. cbn [length] in Hc.
    assert (E1 : nth (length X) (concat Ws ++ Wr) lw = lw) by (rewrite Ec, <- app_assoc, app_nth2, Nat.sub_diag by lia; reflexivity).
    rewrite Hq in E1. rewrite app_nth2 in E1 by (rewrite firstn_length; lia).
    assert (Hla : length X - length (firstn n (concat Ws ++ Wr)) < length a).
    { apply (f_equal (@length _)) in Hq. rewrite !app_length in Hq.
      assert (length (concat Ws) = length X + 1) by (rewrite Ec, app_length; reflexivity). pose proof (firstn_le_length n (concat Ws ++ Wr)). lia. }
    apply (nth_In _ lw) in Hla. rewrite E1 in Hla. pose proof (proj1 (Forall_forall _ _) Hna lw Hla) as Hz. cbn in Hz. congruence. }
  rewrite <- app_assoc in *.
  assert (Hnl : n - length (concat Ws) <= length Wr).
  { apply (f_equal (@length _)) in Hq. rewrite !app_length, firstn_length, !app_length in Hq. rewrite !app_length in Hnq. lia. }
  replace n with (length (concat Ws) + (n - length (concat Ws))) in He by lia. rewrite emits_app, EO, skipn_app, skipn_all, Nat.sub_diag in He. cbn [skipn app] in He.
  destruct (Nat.eq_dec (n - length (concat Ws)) 0) as [Hz|Hz].
  - rewrite Hz in He. cbn in He. rewrite !app_nil_r in He. injection He as E0 E1 _. rewrite <- E0, <- E1. auto.
  - assert (Hx' : F < rem ext) by (apply Hx; intros ->; cbn in Hnl; lia).
    destruct (emits_rest ext Hx' Wr _ false HWr Hn Hnl) as (o0 & s' & E & N1 & N2). rewrite E in He. injection He as E0 E1 _.
    rewrite <- E0, <- E1, app_nil_r. rewrite frames_app, A1, A2. destruct (frames_none o0 [] N1) as [-> _]. rewrite app_nil_r. auto.
Qed.

Theorem fs_rate s i : i_r0 i = true -> i_r1 i = true -> o_rd (snd (step s i)) = true.
Proof. intros H0 H1. unfold fs_step. cbn [snd o_rd]. rewrite H0, H1. apply rdy_true. Qed.

(** * valid of the outputs *)
Lemma stream_acc cs : forall acc, stream cs acc = stream cs [] ++ acc.
Proof.
  induction cs as [|c cs IH]; intros acc; [reflexivity|]. cbn [stream]. rewrite IH, (IH (push [] c)). rewrite <- app_assoc. f_equal. unfold push. destruct (c_v c); reflexivity.
Qed.
Lemma flush_stream cs : forall b, fold_left flush cs b = b || existsb (fun w => w_l w) (stream cs []).
Proof.
  induction cs as [|c cs IH]; intros b; cbn [fold_left stream]; [cbn; now rewrite orb_false_r|]. rewrite IH, (stream_acc cs (push [] c)), existsb_app.
  unfold flush, push. destruct (c_v c); cbn; rewrite ?orb_false_r; [|reflexivity]. destruct b, (w_l (c_w c)), (existsb (fun w => w_l w) (stream cs [])); reflexivity.
Qed.
Lemma hole_flush m cs o : forall acc, good m Ho acc (cs ++ [o]) -> c_v o = true -> fold_left flush (cs ++ [o]) false = true.
Proof.
  induction cs as [|c cs IH]; intros acc G Ho'.
  - cbn in *. unfold okc, flush in *. rewrite Ho' in *. destruct (w_l (c_w o)); [reflexivity|tauto].
  - cbn in G. destruct G as [G1 G2]. cbn [app fold_left]. unfold flush at 2. unfold okc, nxt in *. destruct (c_v c).
    + destruct (w_l (c_w c)); [|destruct G1]. rewrite flush_stream. reflexivity.
    + exact (IH _ G2 Ho').
Qed.
Lemma full_rdy m (o : cell) : c_v o = true -> forall cs st acc, good m st acc (cs ++ [o]) -> rdy false (cs ++ [o]) = true -> fold_left flush (cs ++ [o]) false = true.
Proof.
  intros Eo. induction cs as [|c cs IH]; intros st acc G R.
  - cbn in R. rewrite Eo in R. discriminate.
  - cbn in G, R. destruct G as [G1 G2]. cbn [app fold_left]. unfold flush at 2. unfold nxt in G2. destruct (c_v c) eqn:Ec.
    + cbn in R. destruct (w_l (c_w c)); [rewrite flush_stream; reflexivity|]. cbn. exact (IH _ _ G2 R).
    + cbn. exact (hole_flush _ _ _ _ G2 Eo).
Qed.
Lemma shift_last dv set n x (o : cell) : c_v o = true -> x = false -> forall cs i p pf, exists cs', shift B F dv set n i p pf x (cs ++ [o]) = cs' ++ [o].
Proof.
  intros Eo ->. induction cs as [|c cs IH]; intros i p pf.
  - exists []. cbn. unfold next_cell. rewrite Eo. reflexivity.
  - cbn [app shift]. destruct (IH (S i) c (flush pf c)) as [cs' ->]. eexists (_ :: cs'). reflexivity.
Qed.

(** the outputs in terms of the stream *)
Definition d_en (w : word) (q : list word) (sof : bool) : bool * bool :=
  let m := fmask (rem (w :: q)) in let d1 := existsb id m in let m0 := nth 0 m false in (negb m0 || (d1 && m0 && negb sof && w_l w), d1).
Definition d_w0 (w : word) (q : list word) (sof : bool) : word :=
  let m := fmask (rem (w :: q)) in let d1 := existsb id m in let m0 := nth 0 m false in let zl := d1 && m0 && negb sof && w_l w in
  mk_w (w_d w) (map (fun x => fst x && negb (snd x) && negb zl) (combine (w_k w) m)) (d1 || nth 0 (fmask (rem q)) false).
Definition d_w1 (w : word) (q : list word) : word :=
  mk_w (w_d w) (map (fun x => fst x && snd x) (combine (w_k w) (fmask (rem (w :: q))))) (w_l w).
Lemma out_sim m s fut i cs p oc : Inv m s fut -> fs_regs s = cs ++ [p; oc] -> c_v oc = true ->
  flush_all (fs_regs s) = true \/ fut <> [] -> exists w q', stream (fs_regs s) fut = w :: q' /\ w = c_w oc /\
  let o := snd (step s i) in let (d0, d1) := d_en w q' (fs_sof s) in let en := i_v i || flush_all (fs_regs s) in
  o_rd o = rdy ((i_r0 i || negb d0) && (i_r1 i || negb d1)) (fs_regs s) /\
  o0_v o = d0 && en && (negb d1 || i_r1 i) /\ o1_v o = d1 && en && (negb d0 || i_r0 i) /\ o0_w o = d_w0 w q' (fs_sof s) /\ o1_w o = d_w1 w q'.
Proof.
  intros [Hlen G Hok Hwf] Er Eo Hen. destruct s as [regs sof]. cbn [fs_regs fs_sof] in *.
  assert (Hfr : fut <> [] -> 1 <= rem fut).
  { intros Hne. apply rem_pos; [|exact Hne]. destruct (stream_suffix regs fut) as [a Ha]. rewrite Ha in Hok. apply Forall_app in Hok. tauto. }
  pose proof Er as Er'. rewrite Er in G, Hlen, Hok, Hen. destruct (out_masks m fut cs p oc G Hlen Eo Hok Hen Hfr) as (Sq & Em & El).
  rewrite <- Er in Sq. exists (c_w oc), (push (stream cs fut) p). split; [exact Sq|]. split; [reflexivity|].
  unfold fs_step. cbn [fs_regs fs_sof snd o_rd o0_v o1_v o0_w o1_w].
  replace (last regs _) with oc by (rewrite Er; change [p; oc] with ([p] ++ [oc]); now rewrite app_assoc, last_last).
  replace (last (removelast regs) _) with p by (rewrite Er; change [p; oc] with ([p] ++ [oc]); now rewrite app_assoc, removelast_last, last_last).
  unfold d_en, d_w0, d_w1. rewrite <- Em. rewrite Eo, El. rewrite !andb_true_r. cbn [andb]. repeat split; reflexivity.
Qed.

Lemma held_step m s fut i i' : Inv m s fut -> let o := snd (step s i) in let s' := fst (step s i) in let o' := snd (step s' i') in
  (i_v i = true -> exists fut', fut = i_w i :: fut') ->
  (i_v i = true -> o_rd o = false -> i_v i' = true) ->
  (o0_v o = true -> i_r0 i = false -> i_r1 i' = true -> o0_v o' = true /\ o0_w o' = o0_w o) /\
  (o1_v o = true -> i_r1 i = false -> i_r0 i' = true -> o1_v o' = true /\ o1_w o' = o1_w o).
Proof.
  intros Hinv o s' o' Hfut Hi'. pose proof L_pos as HLp.
  destruct (two_last (fs_regs s) ltac:(rewrite (inv_len _ _ _ Hinv); lia)) as (cs & p & oc & Er).
  (* valid needs a word in out_reg and en *)
  assert (V : o0_v o = true \/ o1_v o = true -> c_v oc = true /\ i_v i || flush_all (fs_regs s) = true).
  { unfold o, fs_step. cbn [snd o0_v o1_v].
    replace (last (fs_regs s) _) with oc by (rewrite Er; change [p; oc] with ([p] ++ [oc]); now rewrite app_assoc, last_last).
    intros [Hv|Hv]; repeat (apply andb_true_iff in Hv; destruct Hv as [Hv ?]); auto. }
  assert (Main : c_v oc = true -> i_v i || flush_all (fs_regs s) = true -> exists w q,
    (let (d0, d1) := d_en w q (fs_sof s) in o0_v o = d0 && (negb d1 || i_r1 i) /\ o1_v o = d1 && (negb d0 || i_r0 i)) /\ o0_w o = d_w0 w q (fs_sof s) /\ o1_w o = d_w1 w q /\
    (let (d0, d1) := d_en w q (fs_sof s) in (i_r0 i || negb d0) && (i_r1 i || negb d1) = false -> 
     o0_v o' = d0 && (negb d1 || i_r1 i') /\ o1_v o' = d1 && (negb d0 || i_r0 i') /\ o0_w o' = d_w0 w q (fs_sof s) /\ o1_w o' = d_w1 w q)).
  { intros Eo Een.
    assert (Hf : flush_all (fs_regs s) = true \/ fut <> []).
    { destruct (i_v i); [right; destruct (Hfut eq_refl) as [f ->]; discriminate|left; exact Een]. }
    destruct (out_sim m s fut i cs p oc Hinv Er Eo Hf) as (w & q & Sq & Ew & O). exists w, q. fold o in O.
    destruct (d_en w q (fs_sof s)) as [d0 d1] eqn:Ed. destruct O as (Ord & O0 & O1 & W0 & W1). rewrite Een, !andb_true_r in O0, O1.
    split; [auto|]. split; [exact W0|]. split; [exact W1|]. intros Ex. rewrite Ex in Ord.
    destruct (step_sim m s fut i Hinv) as (m' & Hinv' & Hc); [intros Hv _; exact (Hfut Hv)|]. fold o s' in Hinv', Hc.
    (* nothing left *)
    assert (Er2 : exists cs2 p2, fs_regs s' = cs2 ++ [p2; oc]).
    { destruct (two_last (fs_regs s') ltac:(rewrite (inv_len _ _ _ Hinv'); lia)) as (c2 & p2 & o2 & E2). exists c2, p2. rewrite E2.
      assert (Hx : exists c3, fs_regs s' = c3 ++ [oc]).
      { unfold s', fs_step. cbn [fst fs_regs]. 
        replace (fs_regs s) with ((cs ++ [p]) ++ [oc]) by (rewrite Er, <- app_assoc; reflexivity).
        rewrite !last_last. apply shift_last; [exact Eo|].
        pose proof Ed as Ed'. unfold d_en in Ed'. pose proof (out_masks m fut cs p oc) as OM. rewrite <- Er in OM.
        destruct OM as (Sq' & Em & _); auto; [exact (inv_good _ _ _ Hinv)|exact (inv_len _ _ _ Hinv)|exact (inv_ok _ _ _ Hinv)| |].
        { intros Hne. apply rem_pos; [|exact Hne]. destruct (stream_suffix (fs_regs s) fut) as [a Ha]. pose proof (inv_ok _ _ _ Hinv) as Hok. rewrite Ha in Hok. apply Forall_app in Hok. tauto. }
        rewrite Sq in Sq'. injection Sq' as Sw Sq'. rewrite <- Sq', <- Sw in Em. rewrite Em, Eo, andb_true_r, <- Ew.
        pose proof (f_equal fst Ed') as E0. pose proof (f_equal snd Ed') as E1. cbn [fst snd] in E0, E1. rewrite E1 in *. rewrite E0. exact Ex. }
      destruct Hx as [c3 Hx]. rewrite E2 in Hx. change [p2; o2] with ([p2] ++ [o2]) in Hx. rewrite app_assoc in Hx. apply app_inj_tail in Hx. now rewrite (proj2 Hx). }
    destruct Er2 as (cs2 & p2 & Er2).
    assert (Hst : stream (fs_regs s') (if i_v i && o_rd o then tl fut else fut) = w :: q /\ fs_sof s' = fs_sof s).
    { destruct Hc as [(_ & _ & Hs & Hsof)|(w' & q' & Hq & _ & He)]; [split; [now rewrite Hs|exact Hsof]|]. exfalso.
      rewrite Sq in Hq. injection Hq as <- <-. unfold emit in He. unfold d_en in Ed. pose proof (f_equal fst Ed) as E0. pose proof (f_equal snd Ed) as E1. cbn [fst snd] in E0, E1. rewrite E0, E1 in He. injection He as He0 He1 _.
      unfold out0, out1 in He0, He1. rewrite O0 in He0. rewrite O1 in He1. 
      assert (Hd : d0 || d1 = true).
      { rewrite <- E0. rewrite <- E1. pose proof (existsb_fmask (rem (w :: q))) as Hm. destruct (nth 0 (fmask (rem (w :: q))) false) eqn:En; [|reflexivity]. 
        rewrite (proj2 (existsb_exists _ _)); [apply orb_true_r|]. exists true. split; [|reflexivity]. rewrite <- En. apply nth_In. unfold fmask. rewrite map_length, seq_length. lia. }
      destruct d0, d1, (i_r0 i), (i_r1 i); cbn in *; discriminate. }
    destruct Hst as [Hst Hsof].
    assert (Een' : i_v i' || flush_all (fs_regs s') = true).
    { assert (Hmono : flush_all (fs_regs s) = true -> flush_all (fs_regs s') = true).
      { unfold flush_all. rewrite !flush_stream. cbn [orb]. intros Hl. rewrite (stream_acc (fs_regs s)) in Sq. rewrite (stream_acc (fs_regs s')), <- Sq in Hst.
        destruct (i_v i && o_rd o) eqn:Ea.
        - apply andb_true_iff in Ea. destruct (Hfut (proj1 Ea)) as [f ->]. cbn [tl] in Hst. change (i_w i :: f) with ([i_w i] ++ f) in Hst. rewrite app_assoc in Hst.
          apply app_inv_tail in Hst. rewrite Hst, existsb_app, Hl. reflexivity.
        - apply app_inv_tail in Hst. now rewrite Hst. }
      destruct (flush_all (fs_regs s)) eqn:Efl; [rewrite Hmono by reflexivity; apply orb_true_r|]. rewrite orb_false_r in Een.
      rewrite Hi'; [reflexivity|exact Een|]. rewrite Ord. destruct (rdy false (fs_regs s)) eqn:R; [|reflexivity]. exfalso.
      pose proof (inv_good _ _ _ Hinv) as G. rewrite Er in G, R. change [p; oc] with ([p] ++ [oc]) in G, R. rewrite app_assoc in G, R.
      pose proof (full_rdy m oc Eo _ _ _ G R) as Hz. unfold flush_all in Efl. rewrite Er in Efl. change [p; oc] with ([p] ++ [oc]) in Efl. rewrite app_assoc in Efl. congruence. }
    assert (Hf' : flush_all (fs_regs s') = true \/ (if i_v i && o_rd o then tl fut else fut) <> []).
    { destruct (flush_all (fs_regs s')) eqn:Efl; [now left|]. right. intros Hnil. rewrite Hnil in Hst.
      (* the frame can not be incomplete *)
      rewrite orb_false_r in Een'.
      assert (Hfl0 : flush_all (fs_regs s) = false).
      { destruct (flush_all (fs_regs s)) eqn:E; [|reflexivity]. exfalso. unfold flush_all in E, Efl. rewrite flush_stream in E, Efl. cbn [orb] in E, Efl.
        rewrite (stream_acc (fs_regs s)) in Sq. rewrite <- Sq in Hst. rewrite Hst in Efl. rewrite existsb_app, E in Efl. discriminate. }
      rewrite Hfl0, orb_false_r in Een. destruct (Hfut Een) as [f Ef]. rewrite Een in *. cbn [andb] in *. 
      assert (Hrd : o_rd o = false).
      { rewrite Ord. destruct (rdy false (fs_regs s)) eqn:R; [|reflexivity]. exfalso.
        pose proof (inv_good _ _ _ Hinv) as G. rewrite Er in G, R. change [p; oc] with ([p] ++ [oc]) in G, R. rewrite app_assoc in G, R.
        pose proof (full_rdy m oc Eo _ _ _ G R) as Hz. unfold flush_all in Hfl0. rewrite Er in Hfl0. change [p; oc] with ([p] ++ [oc]) in Hfl0. rewrite app_assoc in Hfl0. congruence. }
      rewrite Hrd, Ef in Hnil. discriminate. }
    destruct (out_sim m' s' _ i' cs2 p2 oc Hinv' Er2 Eo Hf') as (w' & q' & Sq' & _ & O'). fold o' in O'. rewrite Hst in Sq'. injection Sq' as <- <-.
    rewrite Hsof, Ed in O'. destruct O' as (_ & P0 & P1 & P2 & P3). rewrite Een', andb_true_r in P0, P1. auto. }
  split; intros Hv Hr Hr'.
  - destruct (V (or_introl Hv)) as [Eo Een]. destruct (Main Eo Een) as (w & q & Ho & W0 & W1 & Hn). destruct (d_en w q (fs_sof s)) as [d0 d1].
    destruct Ho as [Ho0 Ho1]. rewrite Hv in Ho0. symmetry in Ho0. apply andb_true_iff in Ho0. destruct Ho0 as [-> _]. rewrite Hr in Hn. destruct (Hn eq_refl) as (N0 & _ & N2 & _).
    rewrite N0, N2, W0, Hr'. split; [cbn; apply orb_true_r|reflexivity].
  - destruct (V (or_intror Hv)) as [Eo Een]. destruct (Main Eo Een) as (w & q & Ho & W0 & W1 & Hn). destruct (d_en w q (fs_sof s)) as [d0 d1].
    destruct Ho as [Ho0 Ho1]. rewrite Hv in Ho1. symmetry in Ho1. apply andb_true_iff in Ho1. destruct Ho1 as [-> _]. rewrite Hr in Hn. rewrite andb_false_r in Hn. destruct (Hn eq_refl) as (_ & N1 & _ & N3).
    rewrite N1, N3, W1, Hr'. split; [cbn; apply orb_true_r|reflexivity].
Qed.

Theorem fs_held ws is i i' : length ws = L + 1 -> let s := final step (fs_init B ws) is in
  let A := accepted (trace step (fs_init B ws) is) ++ (if i_v i then [i_w i] else []) in
  Forall (word_ok B) A -> Forall (fun f => F <= length f) (frames [] A) ->
  let o := snd (step s i) in let o' := snd (step (fst (step s i)) i') in
  (i_v i = true -> o_rd o = false -> i_v i' = true) ->
  (o0_v o = true -> i_r0 i = false -> i_r1 i' = true -> o0_v o' = true /\ o0_w o' = o0_w o) /\
  (o1_v o = true -> i_r1 i = false -> i_r0 i' = true -> o1_v o' = true /\ o1_w o' = o1_w o).
Proof.
  intros Hl s A Hok HF' o o' Hi'. set (ext := if i_v i then [i_w i] else []).
  assert (Hinv : Inv 0 (fs_init B ws) (accepted (trace step (fs_init B ws) is) ++ ext)).
  { apply init_inv; [exact Hl| |].
    - rewrite <- (app_nil_r (_ ++ ext)). apply (wfs_frames A [] 0 []); auto. exact (fun _ => I).
    - revert Hok. apply Forall_impl. intros w Hw. apply (ok_word w Hw). }
  destruct (trace_sim ext is 0 _ Hinv) as (n & m' & _ & Hinv' & _). fold s in Hinv'.
  apply (held_step m' s ext i i' Hinv'); [|exact Hi']. unfold ext. intros ->. eauto.
Qed.
End G.

From Verif Require Import FsCases.
Lemma short_deadlock : exists is : list (fs_in nat), let s := final (fs_step 2 1) (fs_init 2 (regs0 2)) is in
  frames [] (accepted (trace (fs_step 2 1) (fs_init 2 (regs0 2)) is)) = [[1; 2]] /\ sent0 (trace (fs_step 2 1) (fs_init 2 (regs0 2)) is) = [] /\
  forall is', Forall (fun i => i_r0 i = false /\ i_r1 i = false) is' ->
  Forall (fun c => o0_v (snd c) = false /\ o1_v (snd c) = false) (trace (fs_step 2 1) s is').
Proof.
  exists short. cbv zeta. split; [reflexivity|]. split; [reflexivity|].
  set (c := mk_c true (wd 1 2 2 true) [false; true]).
  assert (Hs : exists p, final (fs_step 2 1) (fs_init 2 (regs0 2)) short = mk_fs [p; c] false) by (eexists; vm_compute; reflexivity).
  destruct Hs as [p ->]. intros is' Hi. revert p. induction Hi as [|i is' [H0 H1] _ IH]; intros p; [constructor|]. rewrite trace_cons. constructor.
  - unfold fs_step. cbn [fs_regs fs_sof snd o0_v o1_v last removelast]. rewrite H0, H1. cbn. rewrite !andb_false_r. auto.
  - assert (Hn : exists p', fst (fs_step 2 1 (mk_fs [p; c] false) i) = mk_fs [p'; c] false).
    { unfold fs_step. cbn [fs_regs fs_sof fst last removelast]. rewrite H0, H1. cbn. rewrite !andb_false_r. eexists. reflexivity. }
    destruct Hn as [p' ->]. apply IH.
Qed.
