From Verif Require Import Base BaseFacts FifoAsyncModel FifoAsyncSpec FifoAsyncProofs.

(** C20: [es] is any interleaving of edges of the two clocks (also simultaneous ones, also with either
    outcome of sampling a changing register). *)
Theorem C20_async_fifo_queue :
  forall (A : Type) (AW : nat) (m0 : nat -> A) (d0 : A) (es : list (fa_ev A)),
    1 <= AW ->
    let t := trace (fa_step AW) (fa_init m0 d0) es in
    exists inside, fa_written t = fa_got t ++ inside /\ length inside <= 2 ^ AW.
Proof. exact (fun A AW m0 d0 es H => FA_law AW H m0 d0 es). Qed.
Print Assumptions C20_async_fifo_queue.

(** A word written at any time is offered at the latest after three edges of the read clock. *)
Theorem C20_async_fifo_not_stuck_reader :
  forall (A : Type) (AW : nat) (m0 : nat -> A) (d0 : A) (es fs : list (fa_ev A)) (e : fa_ev A),
    1 <= AW -> 3 <= r_edges fs ->
    let s0 := fa_init m0 d0 in
    let t := trace (fa_step AW) s0 es in
    let t' := trace (fa_step AW) s0 (es ++ fs) in
    length (fa_got t') < length (fa_written t) ->
    ao_rwait (snd (fa_step AW (final (fa_step AW) s0 (es ++ fs)) e)) = false.
Proof. exact c20_prog. Qed.
Print Assumptions C20_async_fifo_not_stuck_reader.

(** Space freed by a read is usable at the latest after three edges of the write clock. *)
Theorem C20_async_fifo_not_stuck_writer :
  forall (A : Type) (AW : nat) (m0 : nat -> A) (d0 : A) (es fs : list (fa_ev A)) (e : fa_ev A),
    1 <= AW -> 3 <= w_edges fs ->
    let s0 := fa_init m0 d0 in
    let t := trace (fa_step AW) s0 es in
    let t' := trace (fa_step AW) s0 (es ++ fs) in
    length (fa_written t') < length (fa_got t) + 2 ^ AW ->
    ao_wwait (snd (fa_step AW (final (fa_step AW) s0 (es ++ fs)) e)) = false.
Proof. exact c20_prog_w. Qed.
Print Assumptions C20_async_fifo_not_stuck_writer.

(** 2-deep fifo: fills (the third write is refused), drains, wraps *)
Example C20_example :
  let t := trace (fa_step 1) (fa_init (fun _ => 0) 0)
             [w 1; w 2; w 3; r; r; r; r; r; w 4; wr 5 true false; wr 6 false true; w 7; wr 8 true true; r; r; r; r; r; r] in
  fa_written t = [1; 2; 7; 8] /\ fa_got t = [1; 2; 7; 8] /\
  map (fun c => ao_wwait (snd c)) (firstn 4 t) = [false; false; true; true].
Proof. vm_compute. auto. Qed.
