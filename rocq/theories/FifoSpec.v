(** What an observer of the pins of [Fifo] / [HandshakedFifo] sees, and what a queue is. *)
From Verif Require Import Base StreamSpec FifoModel.

(** Fifo with en/wait pins.  A write is accepted in a cycle with en=1, wait=0; a read is
    accepted with en=1, wait=0 and its data are on dataOut.data after the edge. *)
Definition wr_acc {A} (c : fifo_in A * fifo_out A) : bool := w_en (fst c) && negb (w_wait (snd c)).
Definition rd_acc {A} (c : fifo_in A * fifo_out A) : bool := r_en (fst c) && negb (r_wait (snd c)).

Fixpoint written {A} (t : list (fifo_in A * fifo_out A)) : list A :=
  match t with
  | [] => []
  | c :: t' => if wr_acc c then w_data (fst c) :: written t' else written t'
  end.
Fixpoint got {A} (t : list (fifo_in A * fifo_out A)) : list A :=
  match t with
  | [] => []
  | c :: t' => if rd_acc c then o_rdata (snd c) :: got t' else got t'
  end.

(** Number of words inside after the cycles of [t]. *)
Definition in_fifo {A} (init : list A) (t : list (fifo_in A * fifo_out A)) : nat :=
  length init + length (written t) - length (got t).

(** The writer never asserts dataIn.en while dataIn.wait is high. *)
Definition polite {A} (t : list (fifo_in A * fifo_out A)) : Prop :=
  forall c, In c t -> w_en (fst c) = true -> w_wait (snd c) = false.

(** The trace is the trace of a queue: order, capacity, flags and counters. *)
Definition fifo_law {A} (cap : nat) (init : list A) (t : list (fifo_in A * fifo_out A)) : Prop :=
  (exists inside, init ++ written t = got t ++ inside /\ length inside <= cap) /\
  (forall t1 c t2, t = t1 ++ c :: t2 ->
     (w_wait (snd c) = true <-> in_fifo init t1 = cap) /\
     (r_wait (snd c) = true <-> in_fifo init t1 = 0) /\
     o_size (snd c) = in_fifo init t1 /\
     o_space (snd c) = cap - in_fifo init t1).

(** Pins of HandshakedFifo as a ready/valid cycle. *)
Definition hsf_obs {A} (c : hsf_in A * hsf_out A) : hs_cycle A A :=
  mk_hs (i_vld (fst c)) (h_rd (snd c)) (i_data (fst c))
        (h_vld (snd c)) (i_rd (fst c)) (h_data (snd c)).
