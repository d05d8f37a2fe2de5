(** C123, C124, C125: Axi4_to_AvalonMm. *)
From Verif Require Import Base FifoModel AvmModel AvmSpec AvmMain AvmCases.

(** Words are lost: [r_data_fifo_capacity] is compared with the low bits of ar.len, so that a read of 33 words is accepted by a fifo of 16 words. *)
Theorem C123_long_read_refuted : exists is : list vin, let t := trace (avm_step true 16) (s0 16) is in
  Forall lens_ok t /\ returns_ok t /\ ~ (exists inside, rets t = map dat (rs t) ++ inside).
Proof.
  exists (rd_run 32 false). cbv zeta. split; [apply lens_check; vm_compute; reflexivity|].
  split; [apply returns_check; vm_compute; reflexivity|]. intros [z Hz]. apply (f_equal (fun l => nth 16 l 0)) in Hz. vm_compute in Hz. discriminate Hz.
Qed.
Print Assumptions C123_long_read_refuted.
(** ... and with R_DATA_FIFO_DEPTH = 2 the second word of a read of two words is lost, even if r.ready is always high. *)
Theorem C123_small_fifo_refuted : exists is : list vin, let t := trace (avm_step true 2) (s0 2) is in
  Forall lens_ok t /\ Forall (short 2) t /\ returns_ok t /\ Forall (fun c => v_rrd (fst c) = true) t /\ ars t = [(8, 5, 1)] /\ rets t = [0; 1] /\
  rs t = [(5, 0, false)] /\ Forall (fun c => o_rv (snd c) = false) (skipn 6 t) /\ 20 <= length (skipn 6 t).
Proof.
  exists (rd_run 1 true). cbv zeta. split; [apply lens_check; vm_compute; reflexivity|].
  split; [apply (all_check (fun c => v_arl (fst c) <? 4)); [intros c E _; apply Nat.ltb_lt in E; exact E|vm_compute; reflexivity]|].
  split; [apply returns_check; vm_compute; reflexivity|].
  split; [apply (all_check (fun c => v_rrd (fst c))); [auto|vm_compute; reflexivity]|].
  split; [vm_compute; reflexivity|]. split; [vm_compute; reflexivity|]. split; [vm_compute; reflexivity|]. split; [|vm_compute; lia].
  apply (all_check (fun c => negb (o_rv (snd c)))); [intros c E; destruct (o_rv (snd c)); [discriminate E|reflexivity]|vm_compute; reflexivity].
Qed.
Print Assumptions C123_small_fifo_refuted.
(** With a fifo of more than two words and reads whose len fits in the register of the capacity: the words on axi are the words which avalon has returned,
    in order and none lost, and each read gets exactly len + 1 words with its id, last on the last one. *)
Theorem C123_reads_partial : forall (AD ID D M : Type) RP DEPTH (a : AD) (d : ID) l ol w m1 x1 (m2 : nat -> D) x2 ci cl (is : list (avm_in AD ID D M)),
  2 < DEPTH -> let t := trace (avm_step RP DEPTH) (avm_init DEPTH a d l ol w m1 x1 m2 x2 ci cl) is in
  Forall lens_ok t -> Forall (short DEPTH) t -> returns_ok t ->
  (exists inside, rets t = map dat (rs t) ++ inside /\ length inside <= DEPTH) /\
  (exists rest, flat_map answer (ars t) = map mark (rs t) ++ rest /\ length rest <= DEPTH).
Proof. exact @avm_reads. Qed.
Print Assumptions C123_reads_partial.
(** ... and a returned word is offered on r within two cycles *)
Theorem C123_offer_partial : forall (AD ID D M : Type) RP DEPTH (a : AD) (d : ID) l ol w m1 x1 (m2 : nat -> D) x2 ci cl (is : list (avm_in AD ID D M)) (i j : avm_in AD ID D M),
  2 < DEPTH -> let s0 := avm_init DEPTH a d l ol w m1 x1 m2 x2 ci cl in let t := trace (avm_step RP DEPTH) s0 (is ++ [i; j]) in
  Forall lens_ok t -> Forall (short DEPTH) t -> returns_ok t ->
  let t1 := trace (avm_step RP DEPTH) s0 is in let t2 := trace (avm_step RP DEPTH) s0 (is ++ [i]) in length (rs t1) < length (rets t1) ->
  length (rs t1) < length (rs t2) \/ o_rv (snd (avm_step RP DEPTH (final (avm_step RP DEPTH) s0 (is ++ [i])) j)) = true.
Proof. exact @avm_offer. Qed.
Print Assumptions C123_offer_partial.
Example C123_witness : let t := trace (avm_step true 16) (s0 16) mix_run in
  forallb (fun c => v_arl (fst c) <? 32) t = true /\ returns_ok t /\ ars t = [(8, 5, 1); (9, 6, 0)] /\ rets t = [1; 2; 3] /\
  rs t = [(5, 1, false); (5, 2, true); (6, 3, true)].
Proof. cbv zeta. split; [vm_compute; reflexivity|]. split; [apply returns_check; vm_compute; reflexivity|]. vm_compute. auto. Qed.

(** each accepted read becomes one avalon read with the same address and len + 1 words, in order *)
Theorem C124_requests : forall (AD ID D M : Type) RP DEPTH (a : AD) (d : ID) l ol w m1 x1 (m2 : nat -> D) x2 ci cl (is : list (avm_in AD ID D M)),
  let t := trace (avm_step RP DEPTH) (avm_init DEPTH a d l ol w m1 x1 m2 x2 ci cl) is in
  Forall lens_ok t -> exists rest, map req (ars t) = reads t ++ rest /\ length rest <= 1.
Proof. exact @avm_reqs. Qed.
Print Assumptions C124_requests.
(** a read for which there is room is accepted when no write is open, the slave does not wait and (write priority) no write is offered *)
Theorem C124_accept : forall (AD ID D M : Type) RP DEPTH (a : AD) (d : ID) l ol w m1 x1 (m2 : nat -> D) x2 ci cl (is : list (avm_in AD ID D M)) (i : avm_in AD ID D M),
  2 < DEPTH -> let s0 := avm_init DEPTH a d l ol w m1 x1 m2 x2 ci cl in
  let t1 := trace (avm_step RP DEPTH) s0 is in let t := trace (avm_step RP DEPTH) s0 (is ++ [i]) in
  Forall lens_ok t -> returns_ok t -> room_ok DEPTH t -> length (beats t1) = length (flat_map burst (aws t1)) ->
  v_arv i = true -> v_wait i = false -> (RP = false -> v_awv i && v_wv i = false) ->
  o_arrd (snd (avm_step RP DEPTH (final (avm_step RP DEPTH) s0 is) i)) = true.
Proof. exact @avm_accept. Qed.
Print Assumptions C124_accept.
Example C124_witness : let t := trace (avm_step true 16) (s0 16) mix_run in reads t = [(8, 2); (9, 1)] /\ map o_arrd (outs (avm_step true 16) (s0 16) (firstn 1 mix_run)) = [true].
Proof. vm_compute. auto. Qed.

(** With RW_PRIORITY = READ a write is executed (and answered) whose address has not been accepted, if a read waits for space at the same time. *)
Theorem C125_not_accepted_refuted : exists is : list vin, let t := trace (avm_step true 16) (s0 16) is in
  aws t = [] /\ beats t = [(100, 1, (77, 1))] /\ bs t = [7].
Proof. exists wr_run. vm_compute. auto. Qed.
Print Assumptions C125_not_accepted_refuted.
(** With RW_PRIORITY = WRITE, or if each read fits in the fifo when it is offered: for each accepted write avalon gets len + 1 words with its address and
    burst and the data of w in order, the next write is accepted after the last word, and each finished write is answered once with its id. *)
Theorem C125_writes_partial : forall (AD ID D M : Type) RP DEPTH (a : AD) (d : ID) l ol w m1 x1 (m2 : nat -> D) x2 ci cl (is : list (avm_in AD ID D M)),
  let t := trace (avm_step RP DEPTH) (avm_init DEPTH a d l ol w m1 x1 m2 x2 ci cl) is in
  Forall lens_ok t -> (RP = true -> 2 < DEPTH /\ returns_ok t /\ room_ok DEPTH t) ->
  exists done open begun, aws t = done ++ open /\ length open <= 1 /\
    map fst (beats t) = flat_map burst done ++ begun /\ (exists rest, flat_map burst open = begun ++ rest /\ (open <> [] -> rest <> [])) /\
    map snd (beats t) = map fst (ws t) /\ (last_ok t -> bs t = map id_of done).
Proof. exact @avm_writes. Qed.
Print Assumptions C125_writes_partial.
(** ... and if data are offered, the slave does not wait and b is ready: a word of an open write is passed on, and without an open write a new one is accepted *)
Theorem C125_progress_partial : forall (AD ID D M : Type) RP DEPTH (a : AD) (d : ID) l ol w m1 x1 (m2 : nat -> D) x2 ci cl (is : list (avm_in AD ID D M)) (i : avm_in AD ID D M),
  let s0 := avm_init DEPTH a d l ol w m1 x1 m2 x2 ci cl in let t := trace (avm_step RP DEPTH) s0 is in
  Forall lens_ok t -> (RP = true -> 2 < DEPTH /\ returns_ok t /\ room_ok DEPTH t) -> v_wv i = true -> v_brd i = true -> v_wait i = false ->
  let o := snd (avm_step RP DEPTH (final (avm_step RP DEPTH) s0 is) i) in
  (length (beats t) < length (flat_map burst (aws t)) -> o_wrd o = true /\ o_write o = true) /\
  (length (beats t) = length (flat_map burst (aws t)) -> v_awv i = true -> (RP = true -> v_arv i = false) -> o_awrd o = true).
Proof. exact @avm_wprog. Qed.
Print Assumptions C125_progress_partial.
Example C125_witness : let t := trace (avm_step true 16) (s0 16) mix_run in
  returns_ok t /\ room_ok 16 t /\ aws t = [(100, 7, 2); (108, 9, 0)] /\ bs t = [7; 9] /\ map snd (ws t) = flat_map lasts (aws t) /\
  beats t = [(100, 3, (70, 1)); (100, 3, (71, 1)); (100, 3, (72, 1)); (108, 1, (73, 1))].
Proof. cbv zeta. split; [apply returns_check; vm_compute; reflexivity|]. split; [apply room_check; vm_compute; reflexivity|]. vm_compute. auto. Qed.
