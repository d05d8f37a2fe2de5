(** Model of hwtLib/mem/fifo.py [Fifo] and hwtLib/handshaked/fifo.py [HandshakedFifo]. *)
From Verif Require Import Base.

Section Fifo.
  Context {A : Type}.
  (** Parameter DEPTH, mem/fifo.py:36; elaboration asserts DEPTH > 0 (mem/fifo.py:50). *)
  Variable DEPTH : nat.

  (** index_t = HBits(log2ceil(DEPTH)), mem/fifo.py:70 *)
  Definition ptr_w : nat := log2ceil DEPTH.
  (** MAX_DEPTH, mem/fifo.py:72 *)
  Definition max_ptr : nat := DEPTH - 1.
  (** size_reg / space_reg have the type of the [size]/[space] port:
      HBits(log2ceil(DEPTH + 1)), mem/fifo.py:42-46 *)
  Definition size_w : nat := log2ceil (DEPTH + 1).

  (** Registers of Fifo: write_ptr (fifo.py:76), read_ptr0 (fifo.py:90), looped0
      (fifo.py:102), memory (fifo.py:144), dout.data (a clocked output, fifo.py:152-166),
      size_reg and space_reg (fifo.py:169, 182). *)
  Record fifo_st := mk_fifo {
    wptr : nat; rptr : nat; looped : bool; mem : nat -> A; dreg : A;
    size_r : nat; space_r : nat }.

  (** Inputs of one cycle: dataIn.en, dataIn.data, dataOut.en. *)
  Record fifo_in := mk_fin { w_en : bool; w_data : A; r_en : bool }.
  (** Outputs of one cycle. [o_rdata] is dataOut.data in the cycle *after* this edge
      (dataOut.data is a register loaded by the read, fifo.py:152-156). *)
  Record fifo_out := mk_fout {
    w_wait : bool; r_wait : bool; o_rdata : A; o_size : nat; o_space : nat }.

  (** mem[i] for the memory with INIT_DATA, fifo.py:137-144: cells behind INIT_DATA are
      [None] (unknown), here the arbitrary [m0 i]. *)
  Definition init_mem (init : list A) (m0 : nat -> A) : nat -> A :=
    fun i => nth i init (m0 i).

  (** Reset values: write_ptr = min(len(INIT_DATA), MAX_DEPTH) (fifo.py:76), read_ptr = 0
      (fifo.py:90), looped = len(INIT_DATA) > MAX_DEPTH (fifo.py:102), size_reg =
      len(INIT_DATA) (fifo.py:169), space_reg = DEPTH - len(INIT_DATA) (fifo.py:182). *)
  Definition fifo_init (init : list A) (m0 : nat -> A) (d0 : A) : fifo_st :=
    mk_fifo (Nat.min (length init) max_ptr) 0 (negb (length init <=? max_ptr))
            (init_mem init m0) d0 (length init) (DEPTH - length init).

  (** read_wait, fifo.py:111 *)
  Definition f_rwait (s : fifo_st) : bool := (wptr s =? rptr s) && negb (looped s).
  (** write_wait, fifo.py:120 *)
  Definition f_wwait (s : fifo_st) : bool := (wptr s =? rptr s) && looped s.
  (** fifo_read, fifo.py:112 *)
  Definition f_read (s : fifo_st) (en : bool) : bool :=
    en && (looped s || negb (wptr s =? rptr s)).
  (** fifo_write, fifo.py:121 *)
  Definition f_write (s : fifo_st) (en : bool) : bool :=
    en && (negb (looped s) || negb (wptr s =? rptr s)).

  (** Pointer increment with the wrap at MAX_DEPTH, fifo.py:79-85 and 94-100. *)
  Definition ptr_inc (p : nat) : nat := if p =? max_ptr then 0 else winc ptr_w p.

  (** One clock edge of Fifo, fifo.py:76-121 and 126-192. *)
  Definition fifo_step (s : fifo_st) (i : fifo_in) : fifo_st * fifo_out :=
    let wr := f_write s (w_en i) in
    let rd := f_read s (r_en i) in
    let wptr' := if wr then ptr_inc (wptr s) else wptr s in
    let rptr' := if rd then ptr_inc (rptr s) else rptr s in
    (* looped logic, fifo.py:104-108: uses write_en / read_en, not fifo_write / fifo_read *)
    let looped' :=
      if w_en i && (wptr s =? max_ptr) then true
      else if r_en i && (rptr s =? max_ptr) then false
      else looped s in
    let mem' := if wr then upd (mem s) (wptr s) (w_data i) else mem s in
    let dreg' := if rd then mem s (rptr s) else dreg s in
    (* size, fifo.py:169-179; space, fifo.py:182-192 *)
    let size' := if rd then (if wr then size_r s else wdec size_w (size_r s))
                 else (if wr then winc size_w (size_r s) else size_r s) in
    let space' := if rd then (if wr then space_r s else winc size_w (space_r s))
                  else (if wr then wdec size_w (space_r s) else space_r s) in
    (mk_fifo wptr' rptr' looped' mem' dreg' size' space',
     mk_fout (f_wwait s) (f_rwait s) dreg' (size_r s) (space_r s)).
End Fifo.

Arguments fifo_st : clear implicits.
Arguments fifo_in : clear implicits.
Arguments fifo_out : clear implicits.

(** HandshakedFifo, handshaked/fifo.py *)
Section HsFifo.
  Context {A : Type}.
  (** Parameter DEPTH; elaboration asserts DEPTH > 1 (handshaked/fifo.py:54-57). *)
  Variable DEPTH : nat.
  (** f.DEPTH = self.DEPTH - 1, handshaked/fifo.py:64 *)
  Definition inner_depth : nat := DEPTH - 1.

  (** inner fifo and the register out_vld, handshaked/fifo.py:113 *)
  Record hsf_st := mk_hsf { hf : fifo_st A; ovld : bool }.
  (** dataIn.vld, dataIn.data, dataOut.rd *)
  Record hsf_in := mk_hin { i_vld : bool; i_data : A; i_rd : bool }.
  (** dataIn.rd, dataOut.vld, dataOut.data, size, space *)
  Record hsf_out := mk_hout {
    h_rd : bool; h_vld : bool; h_data : A; h_size : nat; h_space : nat }.

  (** INIT_DATA handling, handshaked/fifo.py:65-69: with len(INIT_DATA) == DEPTH the first
      word goes to the output register (INIT_DATA_FIRST_WORD, reset value of dout.data,
      mem/fifo.py:160-165), otherwise everything goes to the inner fifo. *)
  Definition hsf_init (init : list A) (m0 : nat -> A) (d0 : A) : hsf_st :=
    if length init =? DEPTH then
      mk_hsf (fifo_init inner_depth (tl init) m0 (hd d0 init)) true
    else mk_hsf (fifo_init inner_depth init m0 d0) false.

  (** size / space, handshaked/fifo.py:74-93; the port is HBits(log2ceil(DEPTH + 1 + 1))
      (handshaked/fifo.py:46), the inner value is zero extended (fit=True). *)
  Definition hs_size_w : nat := log2ceil (DEPTH + 1 + 1).

  (** One clock edge, handshaked/fifo.py:95-124. *)
  Definition hsf_step (s : hsf_st) (i : hsf_in) : hsf_st * hsf_out :=
    let f := hf s in
    let wr_en := negb (f_wwait f) in                              (* :101-102 *)
    let fin_en := i_vld i && wr_en in                             (* :105 *)
    let fout_en := (i_rd i || negb (ovld s)) && negb (f_rwait f) in (* :120 *)
    let '(f', fo) := fifo_step inner_depth f (mk_fin fin_en (i_data i) fout_en) in
    let ovld' := if i_rd i || negb (ovld s) then negb (f_rwait f) else ovld s in (* :121-123 *)
    (mk_hsf f' ovld',
     mk_hout wr_en (ovld s) (dreg f)
             (if ovld s then winc hs_size_w (size_r f) else size_r f)
             (if ovld s then space_r f else winc hs_size_w (space_r f))).
End HsFifo.

Arguments hsf_st : clear implicits.
Arguments hsf_in : clear implicits.
Arguments hsf_out : clear implicits.
