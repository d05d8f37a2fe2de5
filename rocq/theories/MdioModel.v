(** Model of hwtLib/peripheral/mdio/master.py (MdioMaster).

    Vectors are lists of bits, the most significant one first.  The period of the tick of ClkBuilder.timer is the parameter. *)
From Verif Require Import Base TimerModel.

(** Mdio, intf.py:42-61 *)
Definition PRE_W : nat := 32.
Definition ST_W : nat := 2.
Definition OP_W : nat := 2.
Definition PA_W : nat := 5.
Definition RA_W : nat := 5.
Definition TA_W : nat := 2.
Definition ADDR_BLOCK_W : nat := ST_W + OP_W + PA_W + RA_W.
Definition D_W : nat := 16.
Definition ST_BITS : list bool := [false; true].
Definition TA_BITS : list bool := [true; false].
Definition OP_READ : list bool := [true; false].
Definition OP_WRITE : list bool := [false; true].

(** master.py:164 *)
Inductive st_t := Idle | Pre | AddrBlock | Ta | Data.
Definition st_eqb (a b : st_t) : bool :=
  match a, b with Idle, Idle | Pre, Pre | AddrBlock, AddrBlock | Ta, Ta | Data, Data => true | _, _ => false end.

(** registers: the counter of clk_half_period_en, mdio_clk, r_data_vld, packet_sequence_timer, is_rx, st, tx_reg, rx_reg *)
Record md_state := mk_md { m_tim : nat -> nat; m_clk : bool; m_rdv : bool; m_cnt : nat; m_rx : bool; m_st : st_t;
                           m_tx : list bool; m_rxreg : list bool }.
(** req.vld, opcode, addr.phy, addr.reg, wdata; rdata.rd; md.io.i *)
Record md_in := mk_mi { i_vld : bool; i_op : list bool; i_phy : list bool; i_reg : list bool; i_wdata : list bool;
                        i_rd : bool; i_io : bool }.
(** req.rd; rdata.vld, rdata.data; md.c, md.io.t (md.io.o is the constant 0) *)
Record md_out := mk_mo { o_rd : bool; o_vld : bool; o_data : list bool; o_c : bool; o_t : bool }.

(** master.py:129: CNTR_MAX *)
Definition CNTR_MAX : nat := PRE_W + ADDR_BLOCK_W + TA_W + D_W - 1.

(** tx_reg << 1; shift_in_msb_first, master.py:72-78 *)
Definition shl1 (l : list bool) : list bool := match l with [] => [] | _ :: l' => l' ++ [false] end.
Definition shift_in (l : list bool) (b : bool) : list bool := match l with [] => [] | _ :: l' => l' ++ [b] end.

Section Mdio.
  (** CLK_HALF_PERIOD_DIV, master.py:147 *)
  Variable DIV : nat.

  (** registers without def_val start with any value *)
  Definition md_init (tx rxreg : list bool) : md_state := mk_md (timers_init [DIV]) false false 0 false Idle tx rxreg.

  (** master.py:152-212, [tick] is clk_half_period_en and [tim'] the next value of its counter *)
  Definition md_core (tick : bool) (tim' : nat -> nat) (s : md_state) (i : md_in) : md_state * md_out :=
    (* master.py:157-158 *)
    let rising := tick && negb (m_clk s) in
    let falling := tick && m_clk s in
    let idle := st_eqb (m_st s) Idle in
    (* master.py:136-139 *)
    let preamble_last := falling && (m_cnt s =? PRE_W - 1) in
    let addr_block_last := falling && (m_cnt s =? PRE_W + ADDR_BLOCK_W - 1) in
    let turnarround_last_en := m_cnt s =? PRE_W + ADDR_BLOCK_W + TA_W - 1 in
    let data_last := rising && (m_cnt s =? CNTR_MAX) in
    (* master.py:165-173 *)
    let st' :=
      match m_st s with
      | Idle => if i_vld i && negb (m_rdv s) then Pre else Idle
      | Pre => if preamble_last then AddrBlock else Pre
      | AddrBlock => if addr_block_last then Ta else AddrBlock
      | Ta => if turnarround_last_en && ((m_rx s && falling) || (negb (m_rx s) && rising)) then Data else Ta
      | Data => if data_last then Idle else Data
      end in
    (* master.py:130-135: the register of the timer is reset while idle *)
    let cnt' := if idle then 0 else if falling then winc (log2ceil CNTR_MAX) (m_cnt s) else m_cnt s in
    let rx' := if idle then forallb (fun p => Bool.eqb (fst p) (snd p)) (combine (i_op i) OP_READ) else m_rx s in
    (* master.py:185-190 *)
    let tx' := if idle && i_vld i then ST_BITS ++ i_op i ++ i_phy i ++ i_reg i ++ TA_BITS ++ i_wdata i
               else if falling && (st_eqb (m_st s) AddrBlock || st_eqb (m_st s) Data || st_eqb (m_st s) Ta) then shl1 (m_tx s)
               else m_tx s in
    let tx_bit := hd false (m_tx s) in
    (* master.py:203-206 *)
    let rxreg' := if st_eqb (m_st s) Data && m_rx s && rising then shift_in (m_rxreg s) (i_io i) else m_rxreg s in
    (* master.py:208-212 *)
    let rdv' := if idle && i_rd i then false else if addr_block_last then m_rx s else m_rdv s in
    (mk_md tim' (if tick then negb (m_clk s) else m_clk s) rdv' cnt' rx' st' tx' rxreg',
     mk_mo (idle && negb (m_rdv s)) (idle && m_rdv s) (m_rxreg s) (m_clk s)
           (* master.py:197-200 *)
           (negb idle && negb tx_bit && (st_eqb (m_st s) AddrBlock || ((st_eqb (m_st s) Data || st_eqb (m_st s) Ta) && negb (m_rx s))))).

  (** master.py:150-151 *)
  Definition md_step (s : md_state) (i : md_in) : md_state * md_out :=
    let '(tim', ticks) := timers_step [DIV] (m_tim s) (true, false) in md_core (nth 0 ticks false) tim' s i.
End Mdio.
