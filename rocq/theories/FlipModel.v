(** Models of hwtLib/mem/atomic: flipReg.py [FlipRegister], flipCntr.py [FlipCntr] and flipRam.py [FlipRam] (PORT_CNT = 1, ports with read
    and write, without HAS_BE). *)
From Verif Require Import Base.

(** * FlipRegister *)
Section Reg.
  Context {V : Type}.
  (** first_reg, second_reg *)
  Record fr_st := mk_fr { fr_a : V; fr_b : V }.
  (** select_sig; first.dout and second.dout: Some data if vld *)
  Record fr_in := mk_fri { fr_sel : bool; fr_w1 : option V; fr_w2 : option V }.
  (** first.din, second.din *)
  Record fr_out := mk_fro { fr_d1 : V; fr_d2 : V }.
  (** flipReg.py:62-63; both registers have DEFAULT_VAL *)
  Definition fr_init (v : V) : fr_st := mk_fr v v.
  Definition written (w : option V) (old : V) : V := match w with Some v => v | None => old end.
  (** connectWriteHwIO, connectReadHwIO, flipReg.py:44-58, hwImpl, flipReg.py:65-71 *)
  Definition fr_step (s : fr_st) (i : fr_in) : fr_st * fr_out :=
    if fr_sel i then (mk_fr (written (fr_w2 i) (fr_a s)) (written (fr_w1 i) (fr_b s)), mk_fro (fr_b s) (fr_a s))
    else (mk_fr (written (fr_w1 i) (fr_a s)) (written (fr_w2 i) (fr_b s)), mk_fro (fr_a s) (fr_b s)).
End Reg.
Arguments fr_st : clear implicits. Arguments fr_in : clear implicits. Arguments fr_out : clear implicits.

(** * FlipCntr *)
(** flipState (flipCntr.py:42) and the FlipRegister with the default DEFAULT_VAL 0 *)
Record fc_st := mk_fc { fc_flip : bool; fc_reg : fr_st nat }.
(** doIncr, doFlip.vld (doFlip.rd is 1), data.dout *)
Record fc_in := mk_fci { fc_incr : bool; fc_do : bool; fc_w : option nat }.
Definition fc_init : fc_st := mk_fc false (fr_init 0).
(** flipHandler, dataHanldler, flipCntr.py:39-53; the output is data.din; first.din + 1 is a combinational loop free read of the register *)
Definition fc_step (W : nat) (s : fc_st) (i : fc_in) : fc_st * nat :=
  let cur := fr_d1 (snd (fr_step (fc_reg s) (mk_fri (fc_flip s) None None))) in
  let r := fr_step (fc_reg s) (mk_fri (fc_flip s) (if fc_incr i then Some (winc W cur) else None) (fc_w i)) in
  (mk_fc (if fc_do i then negb (fc_flip s) else fc_flip s) (fst r), fr_d2 (snd r)).

(** * FlipRam *)
Section Ram.
  Context {A : Type}.
  (** a port: en, we, addr, din *)
  Record fm_port := mk_fmp { fm_en : bool; fm_we : bool; fm_addr : nat; fm_din : A }.
  (** contents and dout of ram0 and ram1; [None] = undefined *)
  Record fm_st := mk_fm { fm_m0 : nat -> A; fm_m1 : nat -> A; fm_d0 : option A; fm_d1 : option A }.
  (** select_sig, firstA, secondA *)
  Record fm_in := mk_fmi { fm_sel : bool; fm_f : fm_port; fm_s : fm_port }.
  Definition fm_init (m0 m1 : nat -> A) : fm_st := mk_fm m0 m1 None None.
  (** the port of RamSingleClock, ram.py:121-131 *)
  Definition fm_mem (m : nat -> A) (p : fm_port) : nat -> A := if fm_en p && fm_we p then upd m (fm_addr p) (fm_din p) else m.
  Definition fm_dout (m : nat -> A) (p : fm_port) : option A := if fm_en p then Some (m (fm_addr p)) else None.
  (** hwImpl, flipRam.py:63-69; the outputs are dout of firstA and secondA *)
  Definition fm_step (s : fm_st) (i : fm_in) : fm_st * (option A * option A) :=
    let p0 := if fm_sel i then fm_f i else fm_s i in
    let p1 := if fm_sel i then fm_s i else fm_f i in
    (mk_fm (fm_mem (fm_m0 s) p0) (fm_mem (fm_m1 s) p1) (fm_dout (fm_m0 s) p0) (fm_dout (fm_m1 s) p1),
     if fm_sel i then (fm_d0 s, fm_d1 s) else (fm_d1 s, fm_d0 s)).
End Ram.
Arguments fm_port : clear implicits. Arguments fm_st : clear implicits. Arguments fm_in : clear implicits.
