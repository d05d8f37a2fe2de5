(** Model of hwtLib/avalon/mm_buff.py [AvalonMmBuff]. *)
From Verif Require Import Base HsRegModel FifoModel.

(** A buffer made by _mk_buff (mm_buff.py:48-58): HandshakedReg (LATENCY = 1) or HandshakedFifo. *)
Section Buf.
  Context {A : Type}.
  Inductive buf := BReg (s : stage A) | BFifo (s : hsf_st A).
  (** [dd] is DATA_BUFF_DEPTH: the fifo has this depth for each DEPTH other than 1 (mm_buff.py:53).
      The registers and the memory have no reset value. *)
  Definition mk_buff (depth dd : nat) (m : nat -> A) (x : A) : buf :=
    if depth =? 1 then BReg (mk_stage KLat false x) else BFifo (hsf_init dd [] m x).
  (** dataIn.vld, dataIn.data, dataOut.rd => next state, dataIn.rd, dataOut.vld, dataOut.data *)
  Definition buf_step (dd : nat) (b : buf) (v : bool) (x : A) (rd : bool) : buf * (bool * bool * A) :=
    match b with
    | BReg s => (BReg (stage_next s v x rd), (stage_rd s rd, occ s, sdat s))
    | BFifo s => let '(s', o) := hsf_step dd s (mk_hin v x rd) in (BFifo s', (h_rd o, h_vld o, h_data o))
    end.
End Buf.
Arguments buf : clear implicits.

Section Amb.
  (** all other signals of a request (address, writeData, byteEnable, burstCount ...), readData, response *)
  Context {P D R : Type}.
  (** ADDR_BUFF_DEPTH, DATA_BUFF_DEPTH; elaboration fails if a fifo would have a depth below 2 (handshaked/fifo.py:54-57) *)
  Variables AB DB : nat.
  (** a request: read, write, other signals (HwIO_pack, :85) *)
  Definition rq : Type := bool * bool * P.
  Record amb_st := mk_am { ad : buf rq; rb : buf D; wb : buf R }.
  (** s: request; m: waitRequest, readDataValid, readData, writeResponseValid, response *)
  Record amb_in := mk_ai { a_rq : rq; a_wait : bool; a_rv : bool; a_rd : D; a_wv : bool; a_wr : R }.
  (** s.waitRequest, s.readDataValid, s.readData, s.writeResponseValid, s.response; m: request *)
  Record amb_out := mk_ao { b_wait : bool; b_rv : bool; b_rd : D; b_wv : bool; b_wr : R; b_rq : rq }.
  Definition asks (q : rq) : bool := fst (fst q) || snd (fst q).
  Definition amb_step (s : amb_st) (i : amb_in) : amb_st * amb_out :=
    let '(rb', (_, rv, rd)) := buf_step DB (rb s) (a_rv i) (a_rd i) true in        (* :65-73 *)
    let '(wb', (_, wv, wr)) := buf_step DB (wb s) (a_wv i) (a_wr i) true in        (* :75-83 *)
    let '(ad', (rdy, v, q)) := buf_step DB (ad s) (asks (a_rq i)) (a_rq i) (negb (a_wait i)) in (* :85-93, 109 *)
    (mk_am ad' rb' wb',
     mk_ao (negb rdy) rv rd wv wr (fst (fst q) && v, snd (fst q) && v, snd q)).    (* :95-108 *)
  Definition amb_init (m1 : nat -> rq) x1 (m2 : nat -> D) x2 (m3 : nat -> R) x3 : amb_st :=
    mk_am (mk_buff AB DB m1 x1) (mk_buff DB DB m2 x2) (mk_buff DB DB m3 x3).
End Amb.
Arguments amb_st : clear implicits. Arguments amb_in : clear implicits. Arguments amb_out : clear implicits. Arguments rq : clear implicits.
