(** Model of hwtLib/amba/axis_comp/fifoDrop.py [Axi4SFifoDrop] over FifoDrop (FifoDropModel.v) and hwtLib/handshaked/fifo.py [HandshakedFifo._connect_fifo_out].
    Simplified: a word is its data (with strb and others) and last; INIT_DATA is empty; size and space are not modelled here. *)
From Verif Require Import Base FifoModel FifoDropModel.

Section Afd.
  Context {A : Type}.
  Local Notation word := (A * bool)%type.
  (** dataIn when valid, dataIn_discard, dataOut.ready *)
  Record afi := mk_afi { f_in : option word; f_disc : bool; f_rd : bool }.
  (** transfers: dataIn, dataOut; dataOut.valid *)
  Record afo := mk_afo { fo_in : bool; fo_out : option word; fo_vld : bool }.
  (** the fifo and the register out_vld *)
  Record afs := mk_afs { a_f : fd_st word; a_vld : bool }.
  (** wait of dataIn and dataOut of the fifo, hwtLib/mem/fifoDrop.py:183-199 *)
  Definition w_wait (s : fd_st word) : bool := (d_wrt s =? d_rd s) && d_loopt s.
  Definition r_wait (s : fd_st word) : bool := (d_wr s =? d_rd s) && negb (d_loop s).
  (** inputs of the fifo, axis_comp/fifoDrop.py:39-50 and handshaked/fifo.py:120 *)
  Definition fifo_in (x : word) (s : afs) (i : afi) : fd_in word :=
    let vld := match f_in i with Some _ => true | None => false end in
    let w := match f_in i with Some w => w | None => x end in
    mk_fdin (vld && negb (w_wait (a_f s))) w (vld && snd w) (f_disc i) ((f_rd i || negb (a_vld s)) && negb (r_wait (a_f s))).
  (** one clock; [x] is the value of data when dataIn is not valid; out_vld by handshaked/fifo.py:113-123 *)
  Definition af_step (x : word) (DEPTH : nat) (s : afs) (i : afi) : afs * afo :=
    (mk_afs (fst (fd_step DEPTH (a_f s) (fifo_in x s i))) (if f_rd i || negb (a_vld s) then negb (r_wait (a_f s)) else a_vld s),
     mk_afo (match f_in i with Some _ => negb (w_wait (a_f s)) | None => false end) (if a_vld s && f_rd i then Some (d_out (a_f s)) else None) (a_vld s)).
  Definition af_init (DEPTH : nat) (m0 : nat -> word) (d0 : word) : afs := mk_afs (fd_init DEPTH m0 d0) false.
End Afd.
Arguments afi : clear implicits. Arguments afo : clear implicits. Arguments afs : clear implicits.
