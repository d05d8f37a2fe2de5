(** C139, C140: AxiWriteAggregatorWriteDispatcher. *)
From Verif Require Import Base WdModel WdSpec WdProofs WdCases.

(** A cacheline of three bus words: one aw for three words and four words of data. *)
Theorem C139_length_refuted : exists is : list win, let t := trace (wd_step 3) ws0 is in
  holds None t /\ taken t = [(5, 100)] /\ aws t = [(5, 100, 2)] /\ map snd (ws t) = [false; false; false; true].
Proof. exists three. vm_compute. repeat split. Qed.
Print Assumptions C139_length_refuted.
(** If the number n of words in a cacheline is a power of two: every consumed item has been read from the memory word by word and in order, it has one aw with its id, its address
    and len n - 1, its n words are sent on w in order with last on the final one; on top of that one item may be partly read, one aw and two words may wait inside. *)
Theorem C139_items_partial : forall (I K D B : Type) n k (x : I) (kk : K) l (r b : D * bool) (is : list (wd_in I K D B)), n = 2 ^ k ->
  let t := trace (wd_step n) (wd_init x kk l r b) is in holds None t ->
  exists cur j pend inside, length cur <= 1 /\ j < n /\ length pend <= 1 /\ length inside <= 2 /\
  reads t = flat_map (words n) (taken t) ++ flat_map (fun x => firstn j (words n x)) cur /\
  map (fun x => (x, n - 1)) (taken t ++ cur) = aws t ++ pend /\
  answers n t = ws t ++ inside.
Proof. exact (fun I K D B n k x kk l r b is H => wd_main n k H x kk l r b is). Qed.
Print Assumptions C139_items_partial.
(** An offered aw or w stays until it is taken. *)
Theorem C139_stable_partial : forall (I K D B : Type) n (x : I) (kk : K) l (r b : D * bool) (is : list (wd_in I K D B)) (i j : wd_in I K D B),
  let s := final (wd_step n) (wd_init x kk l r b) is in keeps (i, snd (wd_step n s i)) (j, snd (wd_step n (fst (wd_step n s i)) j)).
Proof. exact (fun I K D B n x kk l r b is i j => wd_keep n _ i j). Qed.
Print Assumptions C139_stable_partial.
(** Confirmations are exactly the responses of b. *)
Theorem C139_confirm_partial : forall (I K D B : Type) n (x : I) (kk : K) l (r b : D * bool) (is : list (wd_in I K D B)) (i : wd_in I K D B),
  let c := (i, snd (wd_step n (final (wd_step n) (wd_init x kk l r b) is) i)) in confirms1 c = bs1 c.
Proof. exact (fun I K D B n x kk l r b is i => wd_b n _ i). Qed.
Print Assumptions C139_confirm_partial.
Example C139_witness : let t := trace (wd_step 2) ws0 two_items in holds None t /\ taken t = [(5, 100); (7, 200)] /\ aws t = [(5, 100, 1); (7, 200, 1)] /\
  reads t = [(5, 0); (5, 1); (7, 0); (7, 1)] /\ ws t = [((10, 15), false); ((11, 15), true); ((20, 15), false); ((21, 15), true)].
Proof. vm_compute. repeat split. Qed.

(** aw.valid waits for aw.ready: with a bus which raises aw.ready only after aw.valid no item is ever written, for any length of the run. *)
Theorem C140_waits_for_ready_refuted : forall (I K D B : Type) n (x : I) (kk : K) l (r b : D * bool) (is : list (wd_in I K D B)),
  Forall (fun i => aw_rdy i = false) is ->
  Forall (fun c => aw_vld (snd c) = false /\ ex_rd (snd c) = false) (trace (wd_step n) (wd_init x kk l r b) is).
Proof. exact (fun I K D B n x kk l r b is => wd_stuck n is (wd_init x kk l r b) eq_refl eq_refl). Qed.
Print Assumptions C140_waits_for_ready_refuted.
(** With ready memory and bus an item is consumed within n cycles. *)
Theorem C140_progress_partial : forall (I K D B : Type) n k (x : I) (kk : K) l (r b : D * bool) (is : list (wd_in I K D B)) (i : wd_in I K D B), n = 2 ^ k ->
  holds None (trace (wd_step n) (wd_init x kk l r b) is) ->
  ex_vld i = true -> en_rd i = true -> aw_rdy i = true -> w_rdy i = true ->
  exists j, j < n /\ ex_rd (snd (wd_step n (final (wd_step n) (wd_init x kk l r b) (is ++ repeat i j)) i)) = true.
Proof. exact (fun I K D B => wd_prog). Qed.
Print Assumptions C140_progress_partial.
Example C140_witness : ex_rd (snd (wd_step 2 (final (wd_step 2) ws0 (firstn 2 two_items)) (item true 5 100 10 true false))) = true /\
  Forall (fun i : win => aw_rdy i = false) [item true 5 100 0 false true] /\ holds None (trace (wd_step 2) ws0 [item true 5 100 0 false true]).
Proof. split; [reflexivity|]. split; [repeat constructor|vm_compute; auto]. Qed.
