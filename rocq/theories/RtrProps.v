From Verif Require Import Base RtrModel RtrSpec RtrProofs RtrCases.

(** ** C144: reads and swaps of items of one word *)
Theorem C144_atomic_partial : forall (D : Type) (m : nat -> D) a b c x y p q is,
  let s0 := rtr_init m a b c x y p q in let t := trace (rtr_step 1) s0 is in
  flush_at_once t ->
  mem (final (rtr_step 1) s0 is) = memory m t /\
  (exists r, reads m t = got_r t ++ r /\ length r <= 2) /\
  (exists f g, flushes m t = f ++ g /\ length g <= 2 /\
     got_fa t = map (fun x => (Some (fst (fst x)), Some (snd (fst x)))) f /\ got_fd t = map (fun x => (snd x, true)) f).
Proof. exact @atomic. Qed.
Print Assumptions C144_atomic_partial.

(** everything is handed over in three cycles in which the receivers are ready *)
Theorem C144_complete_partial : forall (D : Type) (m : nat -> D) a b c x y p q is i j k,
  let s0 := rtr_init m a b c x y p q in
  let t := trace (rtr_step 1) s0 is in let t' := trace (rtr_step 1) s0 (is ++ [i; j; k]) in
  flush_at_once t -> idle i -> idle j -> idle k ->
  got_r t' = reads m t /\
  got_fa t' = map (fun x => (Some (fst (fst x)), Some (snd (fst x)))) (flushes m t) /\ got_fd t' = map (fun x => (snd x, true)) (flushes m t).
Proof. exact @complete. Qed.
Print Assumptions C144_complete_partial.

(** the condition is met if the receivers are always ready and flushes come with their data *)
Theorem C144_ready_partial : forall (D : Type) (m : nat -> D) a b c x y p q is,
  ready_env is -> flush_at_once (trace (rtr_step 1) (rtr_init m a b c x y p q) is).
Proof. exact @ready_guard. Qed.
Print Assumptions C144_ready_partial.

(** one accepted flush, two flushed items *)
Theorem C144_flush_repeated_refuted : let t := trace (rtr_step 1) ex0 late_data in
  length (filter write_acc t) = 1 /\ got_fa t = [(Some 9, Some 3); (Some 9, Some 3)] /\ got_fd t = [(0, true); (0, true)].
Proof. vm_compute. repeat split; reflexivity. Qed.
Print Assumptions C144_flush_repeated_refuted.

(** a flush which waits for the receiver: a word of data is taken without the address, the memory is overwritten, and the flush
    returns the new content instead of the old one *)
Theorem C144_overwritten_refuted : let t := trace (rtr_step 1) ex0 stalled in
  length (filter write_acc t) = 1 /\ length (filter wdata_acc t) = 2 /\
  flushes (fun _ => 0) t = [(9, 3, 0)] /\ got_fd t = [(5, true)].
Proof. vm_compute. repeat split; reflexivity. Qed.
Print Assumptions C144_overwritten_refuted.

Example C144_nontrivial : ready_env ex_one /\ flush_at_once (trace (rtr_step 1) ex0 ex_one) /\
  reads (fun _ => 0) (trace (rtr_step 1) ex0 ex_one) = [(Some 7, 5, true); (Some 7, 6, true)] /\
  flushes (fun _ => 0) (trace (rtr_step 1) ex0 ex_one) = [(9, 3, 5)] /\ idle nop.
Proof.
  assert (ready_env ex_one) as H by (repeat constructor; discriminate).
  split; [exact H|]. split; [exact (ready_guard _ _ _ _ _ _ _ _ _ H)|]. vm_compute. repeat split; reflexivity.
Qed.

(** ** C145: items of more words *)
(** without flushes, every word of the stream of data is written to its place in the item of its transaction *)
Theorem C145_writes_partial : forall (D : Type) n, 0 < n -> forall (m : nat -> D) a b c x y p q is,
  let s0 := rtr_init m a b c x y p q in
  no_flush is -> let t := trace (rtr_step n) s0 is in
  mem (final (rtr_step n) s0 is) = put_words n (write_addrs t) m 0 (write_words t) /\
  length (write_words t) <= n * length (write_addrs t) < length (write_words t) + n.
Proof. exact @writes_n. Qed.
Print Assumptions C145_writes_partial.

(** without writes, every read returns all words of its item, in order *)
Theorem C145_reads_partial : forall (D : Type) n, 0 < n -> forall (m : nat -> D) a b c x y p q is,
  let s0 := rtr_init m a b c x y p q in
  no_write is -> let t := trace (rtr_step n) s0 is in
  exists later, got_r t ++ later = flat_map (item_words n m) (read_addrs t) /\ length later < n + 2.
Proof. exact @reads_n. Qed.
Print Assumptions C145_reads_partial.

(** an item of zeros is overwritten by an item of ones; a read returns neither *)
Theorem C145_torn_read_refuted : let t := trace (rtr_step 2) ex0 torn in
  write_addrs t = [0] /\ length (write_words t) = 2 /\ read_addrs t = [(7, 0)] /\ got_r t = [(Some 7, 1, false); (Some 7, 0, true)].
Proof. vm_compute. repeat split; reflexivity. Qed.
Print Assumptions C145_torn_read_refuted.

(** a read accepted while a write with flush waits for data is never answered, its words are sent as flushed data *)
Theorem C145_stolen_read_refuted : let t := trace (rtr_step 2) ex0 stolen in
  read_addrs t = [(7, 2)] /\ got_r t = [] /\ length (filter write_acc t) = 1 /\ length (got_fa t) = 1 /\ length (got_fd t) = 4 /\
  rdv (final (rtr_step 2) ex0 stolen) = false /\ m0v (final (rtr_step 2) ex0 stolen) = false /\ pend (final (rtr_step 2) ex0 stolen) = false.
Proof. vm_compute. repeat split; reflexivity. Qed.
Print Assumptions C145_stolen_read_refuted.

Example C145_nontrivial :
  no_flush ex_w4 /\ map (mem (final (rtr_step 4) ex0 ex_w4)) [0; 1; 4; 5; 6; 7] = [5; 6; 1; 2; 3; 4] /\
  no_write ex_r4 /\ got_r (trace (rtr_step 4) ex0 ex_r4) <> [].
Proof. split; [repeat constructor|]. split; [vm_compute; reflexivity|]. split; [repeat constructor|]. vm_compute. discriminate. Qed.
