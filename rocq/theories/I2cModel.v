(** Model of hwtLib/peripheral/i2c/masterBitCntrl.py [I2cMasterBitCtrl]. *)
From Verif Require Import Base.

(** masterBitCntrl.py:20 *)
Definition NOP := 0. Definition START := 1. Definition STOP := 2. Definition READ := 3. Definition WRITE := 4.
(** stT, :234-239; the numbers of steps of a sequence are 0..4 for start, 0..3 for the others *)
Inductive i2c_st := idle | start_ (n : nat) | stop_ (n : nat) | rd_ (n : nat) | wr_ (n : nat).

(** inputs: clk_cnt_initVal, cntrl.cmd, cntrl.din, i2c.scl.i, i2c.sda.i *)
Record i2c_in := mk_i { i_cnt : nat; i_cmd : nat; i_din : bool; i_scl : bool; i_sda : bool }.
(** outputs: cntrl.rd, arbitrationLost, dout, scl.t, sda.t (1 = the line is driven to 0, scl.o = sda.o = 0) *)
Record i2c_out := mk_o { o_rd : bool; o_al : bool; o_dout : bool; o_scl : bool; o_sda : bool }.

(** a glitch filter, :152-180: the path of two registers and the register of three samples (bits 2, 1, 0) *)
Record filt := mk_f { f_0 : bool; f_1 : bool; f_s2 : bool; f_s1 : bool; f_s0 : bool }.
Definition filtered (f : filt) : bool := (f_s2 f && f_s1 f) || (f_s2 f && f_s0 f) || (f_s1 f && f_s0 f).
Definition filt_next (tick : bool) (f : filt) (x : bool) : filt :=
  if tick then mk_f x (f_0 f) (f_s1 f) (f_s0 f) (f_1 f) else mk_f x (f_0 f) (f_s2 f) (f_s1 f) (f_s0 f).

(** registers: state, sda_chk, scl_t, sda_t, filters, filter_clk_cntr, lastScl, lastSda, doutReg, delayedScl_t, slave_wait, clkCntr,
    stateClkEn, al, cmd_stop *)
Record i2c := mk_s { s_st : i2c_st; s_chk : bool; s_scl : bool; s_sda : bool; s_fscl : filt; s_fsda : filt; s_fcnt : nat;
  s_lscl : bool; s_lsda : bool; s_dout : bool; s_dscl : bool; s_wait : bool; s_ccnt : nat; s_cen : bool; s_al : bool; s_cstop : bool }.

(** transitions, :256-280 *)
Definition st_next (al : bool) (cmd : nat) (st : i2c_st) : i2c_st :=
  let seq_to (last : nat) (n : nat) (f : nat -> i2c_st) := if al then idle else if n =? last then idle else f (n + 1) in
  match st with
  | idle => if al then idle else if cmd =? NOP then idle else if cmd =? START then start_ 0 else if cmd =? STOP then stop_ 0
            else if cmd =? WRITE then wr_ 0 else if cmd =? READ then rd_ 0 else idle
  | start_ n => seq_to 4 n start_
  | stop_ n => seq_to 3 n stop_
  | rd_ n => seq_to 3 n rd_
  | wr_ n => seq_to 3 n wr_
  end.
(** scl_t, :282-298 *)
Definition scl_next (al : bool) (st : i2c_st) (scl : bool) : bool :=
  if al then false else
  match st with
  | start_ 1 | start_ 2 | start_ 3 | stop_ 1 | stop_ 2 | stop_ 3 | rd_ 1 | rd_ 2 | wr_ 1 | wr_ 2 => false
  | start_ 4 | stop_ 0 | rd_ 0 | rd_ 3 | wr_ 0 | wr_ 3 => true
  | _ => scl
  end.
(** sda_t, :299-308 *)
Definition sda_next (al : bool) (st : i2c_st) (din sda : bool) : bool :=
  if al then false else
  match st with
  | start_ 0 | start_ 1 | stop_ 3 | rd_ 0 | rd_ 1 | rd_ 2 | rd_ 3 => false
  | start_ 2 | start_ 3 | start_ 4 | stop_ 0 | stop_ 1 | stop_ 2 => true
  | wr_ 0 | wr_ 1 | wr_ 2 | wr_ 3 => negb din
  | _ => sda
  end.
(** :283, 310 *)
Definition ack (al : bool) (st : i2c_st) : bool :=
  negb al && match st with start_ 4 | stop_ 3 | rd_ 3 | wr_ 3 => true | _ => false end.

Definition i2c_step (s : i2c) (i : i2c_in) : i2c * i2c_out :=
  let scl := filtered (s_fscl s) in let sda := filtered (s_fsda s) in
  let tick := s_fcnt s =? 0 in
  (* detectStartAndStop, :182-203; doutReg is driven by the edge of scl *)
  let stopCond := (negb (s_lsda s) && sda) && scl in
  let scl_sync := s_lscl s && negb scl && negb (s_scl s) in
  (* stateClkGen, :123-150 *)
  let reload := (s_ccnt s =? 0) || scl_sync in
  (* arbitrationLostDriver, :205-226; sda_chk is only ever assigned 0, :286 *)
  let al_ := s_chk s && negb sda && negb (s_sda s) in
  (mk_s (st_next (s_al s) (i_cmd i) (s_st s)) (if s_al s then false else s_chk s)
        (scl_next (s_al s) (s_st s) (s_scl s)) (sda_next (s_al s) (s_st s) (i_din i) (s_sda s))
        (filt_next tick (s_fscl s) (i_scl i)) (filt_next tick (s_fsda s) (i_sda i)) (if tick then i_cnt i else wdec 16 (s_fcnt s))
        scl sda (negb (s_lscl s) && scl)
        (s_scl s) ((negb (s_scl s) && s_dscl s && negb scl) || (s_wait s && negb scl))
        (if reload then i_cnt i else if s_wait s then s_ccnt s else wdec 16 (s_ccnt s)) reload
        (match s_st s with idle => al_ || (stopCond && negb (s_cstop s)) | _ => al_ end)
        (if s_cen s then i_cmd i =? STOP else s_cstop s),
   mk_o (ack (s_al s) (s_st s)) (s_al s) (s_dout s) (s_scl s) (s_sda s)).
(** after reset with the value [c] on clk_cnt_initVal *)
Definition i2c_init (c : nat) : i2c :=
  let f := mk_f false false true true true in
  mk_s idle false false false f f c true true false true false c true false false.
