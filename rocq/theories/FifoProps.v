(** Properties C01-C05. *)
From Verif Require Import Base BaseFacts StreamSpec StreamFacts FifoModel FifoSpec FifoProofs HsFifoProofs FifoPropsAux.

(** C01: with a polite writer Fifo is a queue of DEPTH words with exact flags and counters. *)
Theorem C01_fifo_is_queue :
  forall (A : Type) (DEPTH : nat) (m0 : nat -> A) (d0 : A) (is : list (fifo_in A)),
    0 < DEPTH ->
    let t := trace (fifo_step DEPTH) (fifo_init DEPTH [] m0 d0) is in
    polite t -> fifo_law DEPTH [] t.
Proof. exact c01. Qed.
Print Assumptions C01_fifo_is_queue.

(** Non-vacuity: a polite history which fills the fifo, wraps and drains it. *)
Example C01_case :
  let t := trace (fifo_step 2) (fifo_init 2 [] (fun _ => 0) 0) c01_hist in
  forallb (fun c => implb (w_en (fst c)) (negb (w_wait (snd c)))) t = true /\
  written t = [1; 2; 3; 4] /\ got t = [1; 2; 3] /\
  existsb (fun c => w_wait (snd c)) t = true.
Proof. vm_compute. repeat split. Qed.

(** C02 (finding): without the guard the law is false: [looped] is updated by dataIn.en even
    if the write is not performed, a word which was already read is delivered again. *)
Theorem C02_impatient_writer_refuted :
  exists is : list (fifo_in nat),
    let t := trace (fifo_step 2) (fifo_init 2 [] (fun _ => 0) 0) is in
    ~ fifo_law 2 [] t /\ written t = [1; 2; 3] /\ got t = [1; 2; 3; 2].
Proof. exact c02. Qed.
Print Assumptions C02_impatient_writer_refuted.

(** C03: INIT_DATA is the initial content whenever it does not fill the memory completely
    (or the memory has a single cell). *)
Theorem C03_init_data_partial :
  forall (A : Type) (DEPTH : nat) (init : list A) (m0 : nat -> A) (d0 : A) (is : list (fifo_in A)),
    0 < DEPTH -> length init < DEPTH \/ (length init = DEPTH /\ DEPTH = 1) ->
    let t := trace (fifo_step DEPTH) (fifo_init DEPTH init m0 d0) is in
    polite t -> fifo_law DEPTH init t.
Proof. exact c03. Qed.
Print Assumptions C03_init_data_partial.

Example C03_case :
  let t := trace (fifo_step 3) (fifo_init 3 [7; 8] (fun _ => 0) 0) c03_hist in
  forallb (fun c => implb (w_en (fst c)) (negb (w_wait (snd c)))) t = true /\
  got t = [7; 8; 1].
Proof. vm_compute. repeat split. Qed.

(** C03 (finding): a completely filled Fifo does not start full: its write pointer is
    DEPTH-1 instead of 0, so the first writes are accepted and overwrite INIT_DATA. *)
Theorem C03_full_init_data_refuted :
  exists is : list (fifo_in nat),
    let t := trace (fifo_step 3) (fifo_init 3 [7; 8; 9] (fun _ => 0) 0) is in
    polite t /\ ~ fifo_law 3 [7; 8; 9] t /\
    written t = [1] /\ got t = [7; 8; 1].
Proof. exact c03_bad. Qed.
Print Assumptions C03_full_init_data_refuted.

(** The same through HandshakedFifo: INIT_DATA of DEPTH words. *)
Theorem C03_hs_full_init_data_refuted :
  exists is : list (hsf_in nat),
    let t := map hsf_obs (trace (hsf_step 4) (hsf_init 4 [6; 7; 8; 9] (fun _ => 0) 0) is) in
    accepted t = [1] /\ delivered t = [6; 7; 8; 1] /\ ~ queue_law 4 [6; 7; 8; 9] t.
Proof. exact c03_hs_bad. Qed.
Print Assumptions C03_hs_full_init_data_refuted.

(** C03 for HandshakedFifo under the same guard on the inner memory. *)
Theorem C03_hs_init_data_partial :
  forall (A : Type) (DEPTH : nat) (init : list A) (m0 : nat -> A) (d0 : A) (is : list (hsf_in A)),
    2 <= DEPTH -> length init < DEPTH - 1 \/ (DEPTH = 2 /\ length init <= DEPTH) ->
    queue_law DEPTH init (map hsf_obs (trace (hsf_step DEPTH) (hsf_init DEPTH init m0 d0) is)).
Proof. exact c03_hs. Qed.
Print Assumptions C03_hs_init_data_partial.

Example C03_hs_case :
  let t := map hsf_obs (trace (hsf_step 4) (hsf_init 4 [7; 8] (fun _ => 0) 0) hs_hist) in
  accepted t = [1; 2] /\ delivered t = [7; 8].
Proof. vm_compute. split; reflexivity. Qed.

(** C04: HandshakedFifo is a queue of DEPTH words with stable output. *)
Theorem C04_hs_fifo_is_queue :
  forall (A : Type) (DEPTH : nat) (m0 : nat -> A) (d0 : A) (is : list (hsf_in A)),
    2 <= DEPTH ->
    let t := map hsf_obs (trace (hsf_step DEPTH) (hsf_init DEPTH [] m0 d0) is) in
    queue_law DEPTH [] t /\ out_stable t.
Proof. exact c04. Qed.
Print Assumptions C04_hs_fifo_is_queue.

(** C04: readiness and the size/space outputs in every cycle. *)
Theorem C04_hs_fifo_ready_and_counts :
  forall (A : Type) (DEPTH : nat) (m0 : nat -> A) (d0 : A) (is : list (hsf_in A)) (i : hsf_in A),
    2 <= DEPTH ->
    let s0 := hsf_init DEPTH [] m0 d0 in
    let n := stored [] (map hsf_obs (trace (hsf_step DEPTH) s0 is)) in
    let o := snd (hsf_step DEPTH (final (hsf_step DEPTH) s0 is) i) in
    h_size o = n /\ h_space o = DEPTH - n /\ n <= DEPTH /\
    (n < DEPTH - 1 -> h_rd o = true) /\ (n = DEPTH -> h_rd o = false).
Proof. exact c04_counts. Qed.
Print Assumptions C04_hs_fifo_ready_and_counts.

Example C04_case :
  let t := map hsf_obs (trace (hsf_step 3) (hsf_init 3 [] (fun _ => 0) 0) hs_hist) in
  accepted t = [1; 2; 3] /\ delivered t = [1; 2] /\ stored [] t = 1.
Proof. vm_compute. repeat split. Qed.

(** C05: whatever the history, DEPTH+1 cycles with dataOut.rd high deliver everything. *)
Theorem C05_hs_fifo_drains :
  forall (A : Type) (DEPTH : nat) (m0 : nat -> A) (d0 : A) (is js : list (hsf_in A)),
    2 <= DEPTH -> DEPTH + 1 <= length js -> (forall j, In j js -> i_rd j = true) ->
    let s0 := hsf_init DEPTH [] m0 d0 in
    let t := map hsf_obs (trace (hsf_step DEPTH) s0 is) in
    let t' := map hsf_obs (trace (hsf_step DEPTH) s0 (is ++ js)) in
    exists more, delivered t' = accepted t ++ more.
Proof. exact c05. Qed.
Print Assumptions C05_hs_fifo_drains.

Example C05_case :
  let s0 := hsf_init 3 [] (fun _ => 0) 0 in
  let js := repeat (mk_hin true 9 true) 4 in
  let t' := map hsf_obs (trace (hsf_step 3) s0 (hs_hist ++ js)) in
  forallb (fun j : hsf_in nat => i_rd j) js = true /\ delivered t' = [1; 2; 3; 9; 9].
Proof. vm_compute. split; reflexivity. Qed.
