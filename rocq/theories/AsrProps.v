From Verif Require Import Base SimRamModel AsrModel AsrSpec AsrProofs AsrCases.
From Coq Require Import Lia.

(** ** C141: aligned bursts *)
(** all bytes of every word (or none of it) are written: the burst changes exactly its words and takes its data *)
Theorem C141_whole_words_partial : forall cs d q r,
  0 < cs -> Nat.divide cs (rq_addr r) -> rq_size r <= length q -> framed (firstn (rq_size r) q) ->
  Forall (fun w => all_or_nothing cs (ww_strb w)) (firstn (rq_size r) q) ->
  exists d', do_write cs d q r = Some (d', skipn (rq_size r) q) /\
    forall k b, b < 8 * cs -> mem_bit d' k b = put (mem_bit d) (rq_addr r / cs) (firstn (rq_size r) q) k b.
Proof. exact (fun cs d q r Hc Ha Hl Hf Hs => write_spec cs d q r Hc Ha Hl Hf (full_ok cs d _ _ Hs)). Qed.
Print Assumptions C141_whole_words_partial.

(** bytes selected by strobes, in the cases which the memory handles *)
Theorem C141_strobes_partial : forall cs d q r,
  0 < cs -> Nat.divide cs (rq_addr r) -> rq_size r <= length q -> framed (firstn (rq_size r) q) ->
  strobes_ok cs d (rq_addr r / cs) (firstn (rq_size r) q) ->
  exists d', do_write cs d q r = Some (d', skipn (rq_size r) q) /\
    forall k b, b < 8 * cs -> mem_bit d' k b = put (mem_bit d) (rq_addr r / cs) (firstn (rq_size r) q) k b.
Proof. exact write_spec. Qed.
Print Assumptions C141_strobes_partial.

(** a read of written words returns them *)
Theorem C141_read : forall cs d r,
  0 < cs -> Nat.divide cs (rq_addr r) ->
  (forall i, i < rq_size r -> exists c, dict_get d (rq_addr r / cs + i) = Some c /\ c <> CNone) ->
  exists l, do_read cs d r = Some l /\ answers cs d r l.
Proof. exact read_spec. Qed.
Print Assumptions C141_read.

(** a write of one byte to an allocated word makes the other bytes of the word unknown *)
Theorem C141_other_bytes_lost_refuted : exists d q r d' q',
  Nat.divide 4 (rq_addr r) /\ framed (firstn (rq_size r) q) /\ do_write 4 d q r = Some (d', q') /\
  nbit (ww_strb (nth 0 q (mk_ww (mk_hv 0 0) 0 false))) 1 = false /\
  mem_bit d 0 8 = Some true /\ mem_bit d' 0 8 = None.
Proof.
  exists [(0, CInt 256%N)], [mk_ww (mk_hv 170%N full4) 1%N true], (mk_rq 0 0 1).
  exists [(0, CVal 426%N 255%N); (0, CInt 256%N)], [].
  split; [exists 0; reflexivity|]. split; [|vm_compute; repeat split; reflexivity].
  intros [|[|i]] w H; try discriminate. injection H as <-. split; reflexivity.
Qed.
Print Assumptions C141_other_bytes_lost_refuted.

(** on a bus of 64 bits a write of one byte makes the other bytes of a word, which were never written, zeros *)
Theorem C141_unknown_bytes_known_refuted : exists d q r d' q',
  Nat.divide 8 (rq_addr r) /\ framed (firstn (rq_size r) q) /\ do_write 8 d q r = Some (d', q') /\
  nbit (ww_strb (nth 0 q (mk_ww (mk_hv 0 0) 0 false))) 1 = false /\
  mem_bit d 0 8 = None /\ mem_bit d' 0 8 = Some false.
Proof.
  exists [], [mk_ww (mk_hv 170%N (N.ones 64)) 1%N true], (mk_rq 0 0 1).
  exists [(0, CInt 170%N)], [].
  split; [exists 0; reflexivity|]. split; [|vm_compute; repeat split; reflexivity].
  intros [|[|i]] w H; try discriminate. injection H as <-. split; reflexivity.
Qed.
Print Assumptions C141_unknown_bytes_known_refuted.

Example C141_nontrivial :
  Nat.divide 4 (rq_addr ex_aw) /\ rq_size ex_aw = 2 /\ framed (firstn (rq_size ex_aw) ex_w) /\
  strobes_ok 4 ex_mem (rq_addr ex_aw / 4) (firstn (rq_size ex_aw) ex_w) /\
  (exists d, do_write 4 ex_mem ex_w ex_aw = Some (d, []) /\ mem_bit d 2 0 = Some true /\ mem_bit d 2 16 = None /\
     option_map (map rw_data) (do_read 4 d ex_ar) = Some [CInt 287454020%N; CVal 1%N full4]).
Proof.
  split; [exists 1; reflexivity|]. split; [reflexivity|]. split.
  { intros [|[|[|i]]] w H; try discriminate; injection H as <-; vm_compute; split; congruence. }
  split.
  { intros [|[|[|i]]] w H; try discriminate; injection H as <-.
    - left. now right.
    - right. split; [intros v; vm_compute; discriminate|]. intros F. specialize (F 8 ltac:(lia)). vm_compute in F. discriminate. }
  eexists. split; [vm_compute; reflexivity|]. vm_compute. repeat split; reflexivity.
Qed.

(** ** C142: order of transactions *)
(** every read is answered at the check in which it came, with the content of the memory, behind all earlier answers *)
Theorem C142_reads : forall cs d0 pre i post s1 s2 s,
  single (pre ++ i :: post) -> checks cs (asr_init d0) pre = Some s1 -> check cs s1 i = Some s2 -> checks cs s2 post = Some s ->
  exists ws later, r_out s2 = r_out s1 ++ ws /\ r_out s = r_out s2 ++ later /\
    match in_ar i with [] => ws = [] | r :: _ => answers cs (mem s1) r ws end.
Proof. exact reads_order. Qed.
Print Assumptions C142_reads.

(** the memory is always the result of whole writes in the order of the requests, the acknowledges are of exactly these *)
Theorem C142_writes : forall cs d0 is s, single is -> checks cs (asr_init d0) is = Some s ->
  exists n, n <= length (all_aw is) /\ b_out s = map rq_id (firstn n (all_aw is)) /\
    writes cs d0 (all_w is) (firstn n (all_aw is)) = Some (mem s, w_q s).
Proof. exact writes_order. Qed.
Print Assumptions C142_writes.

(** when the data of all writes came, all of them are done and acknowledged *)
Theorem C142_all_done : forall cs d0 is s s', single is -> checks cs (asr_init d0) is = Some s ->
  fold_right (fun r a => rq_size r + a) 0 (all_aw is) <= length (all_w is) ->
  checks cs s (repeat quiet (length (all_aw is))) = Some s' -> b_out s' = map rq_id (all_aw is).
Proof. exact all_done. Qed.
Print Assumptions C142_all_done.

Example C142_nontrivial : single ex_hist /\
  option_map b_out (checks 4 (asr_init ex_mem) (firstn 2 ex_hist)) = Some [] /\
  option_map b_out (checks 4 (asr_init ex_mem) ex_hist) = Some [3; 4] /\
  option_map (fun s => map rw_id (r_out s)) (checks 4 (asr_init ex_mem) ex_hist) = Some [5; 5; 6].
Proof. split; [repeat constructor|]. vm_compute. repeat split; reflexivity. Qed.

(** ** C143: unaligned addresses *)
(** the bytes which are in the first of the two words are read *)
Theorem C143_read_partial : forall cs d addr i v, 0 < cs -> read_unaligned cs d addr i = Some v ->
  forall b, b < 8 * (cs - addr mod cs) -> Some (nbit v b) = mem_bit d (addr / cs + i) (8 * (addr mod cs) + b).
Proof. exact read_unaligned_low. Qed.
Print Assumptions C143_read_partial.

(** the bytes which belong to the first of the two words are written *)
Theorem C143_write_partial : forall cs d v strb addr i, 0 < cs ->
  forall j b, j < cs - addr mod cs -> b < 8 -> nbit strb j = true ->
  mem_bit (write_unaligned cs d v strb addr i) (addr / cs + i) (8 * (addr mod cs + j) + b) = Some (nbit v (8 * j + b)).
Proof. exact write_unaligned_low. Qed.
Print Assumptions C143_write_partial.

(** a read at address 1 does not return the byte at address 4 *)
Theorem C143_read_refuted : exists d v, read_unaligned 4 d 1 0 = Some v /\ nbit v 24 = false /\ mem_bit d 1 0 = Some true.
Proof. exists [(0, CInt 0%N); (1, CInt 1%N)], 0%N. repeat split; reflexivity. Qed.
Print Assumptions C143_read_refuted.

(** a write of one word to address 1 does not write the byte at address 4 and overwrites bytes behind the word *)
Theorem C143_write_refuted : exists d v,
  nbit v 24 = true /\ mem_bit (write_unaligned 4 d v 15%N 1 0) 1 0 = Some false /\
  mem_bit d 1 9 = Some true /\ mem_bit (write_unaligned 4 d v 15%N 1 0) 1 9 = Some false.
Proof. exists [(0, CInt 0%N); (1, CInt 512%N)], 16777216%N. vm_compute. repeat split; reflexivity. Qed.
Print Assumptions C143_write_refuted.

Example C143_nontrivial : read_unaligned 4 [(0, CInt 4369%N); (1, CInt 1%N)] 1 0 = Some 17%N /\
  mem_bit (write_unaligned 4 [] 3%N 15%N 1 0) 0 8 = Some true.
Proof. vm_compute. split; reflexivity. Qed.
