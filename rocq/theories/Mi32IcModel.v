(** Model of hwtLib/cesnet/mi32/interconnectMatrix.py [Mi32InterconnectMatrix] for its single master, behind the buffer s_0_buff
    (Mi32Buff, C69). The fields be and dwr are wires to all slaves. *)
From Verif Require Import Base FifoModel.

Section Ic.
  Context {D : Type}.
  (** SLAVES: offset and size (normalized, C35); MAX_TRANS_OVERLAP *)
  Variables (SLAVES : list (nat * nat)) (DEPTH : nat).

  (** the FIFO r_data_order and the registers r_data<i>_tmp: vld, data (interconnectMatrix.py:52-56, :101-104) *)
  Record ic_st := mk_ic { ic_f : hsf_st nat; ic_tmp : nat -> bool * D }.
  (** master: rd, wr, addr; slaves: ardy, drdy with drd *)
  Record ic_in := mk_ici { ii_rd : bool; ii_wr : bool; ii_addr : nat; ii_ardy : nat -> bool; ii_d : nat -> bool * D }.
  (** master: ardy, drdy, drd; slaves: rd, wr *)
  Record ic_out := mk_ico { io_ardy : bool; io_drdy : bool; io_drd : D; io_rd : nat -> bool; io_wr : nat -> bool }.
  Definition ic_init (m0 : nat -> nat) (d0 : nat) (x : nat -> D) : ic_st := mk_ic (hsf_init DEPTH [] m0 d0) (fun i => (false, x i)).

  (** interconnectMatrix.py:90-95: the chip select *)
  Definition ic_cs (addr : nat) (s : nat * nat) : bool :=
    let b := log2ceil (snd s - 1) in addr / 2 ^ b =? fst s / 2 ^ b.
  (** interconnectMatrix.py:109-112: the index of the first slave with cs & ardy *)
  Fixpoint ic_first (l : list (nat * nat)) (k : nat) (i : ic_in) : option nat :=
    match l with
    | [] => None
    | s :: l' => if ic_cs (ii_addr i) s && ii_ardy i k then Some k else ic_first l' (k + 1) i
    end.
  Definition ic_sel (i : ic_in) (j : nat) : bool := match nth_error SLAVES j with Some s => ic_cs (ii_addr i) s | None => false end.

  (** interconnectMatrix.py:76-132; the data pushed without a selected slave is unknown, it is not pushed then *)
  Definition ic_step (s : ic_st) (i : ic_in) : ic_st * ic_out :=
    let ord_rd := negb (f_wwait (hf (ic_f s))) in
    let first := ic_first SLAVES 0 i in
    let ack := match first with Some _ => true | None => false end in
    let ord_i := match first with Some j => j | None => 0 end in
    let pop := existsb (fun j => fst (ic_tmp s j)) (seq 0 (length SLAVES)) in
    (mk_ic (fst (hsf_step DEPTH (ic_f s) (mk_hin (ack && ii_rd i) ord_i pop))) (ii_d i),
     mk_ico (ack && ord_rd && (ii_rd i || ii_wr i))
            (ovld (ic_f s)) (snd (ic_tmp s (dreg (hf (ic_f s)))))
            (fun j => ii_rd i && ic_sel i j && ord_rd) (fun j => ii_wr i && ic_sel i j && ord_rd)).
End Ic.
Arguments ic_st : clear implicits. Arguments ic_in : clear implicits. Arguments ic_out : clear implicits.
