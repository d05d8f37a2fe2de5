(** Model of hwtLib/peripheral/spi/master.py (SpiMaster), with HAS_TX and HAS_RX and SPI_DATA_WIDTH = 1.

    SLAVE_CNT is 1: [self.spi] (master.py:87) and data.slave (52) are declared without the parameters of the component, so
    another SLAVE_CNT gives vectors of different widths in master.py:197-200; with one slave BinToOneHot gives its enable.
    Vectors are lists of bits, the most significant one first. *)
From Verif Require Import Base TimerModel.

Section Spi.
  (** SPI_FREQ_PESCALER, SS_WAIT_CLK_TICKS *)
  Variables PRESC SS : nat.

  (** master.py:135-141 *)
  Definition HALF : nat := PRESC / 2.
  Definition periods : list nat := [HALF; HALF * SS * 2; HALF * 8 * 2].

  (** counters of the timers (cells in the order of the sorted timers), clkIntern, clkOut, register of the edge detector,
      slaveSelectWaitRequired, endOfWordDelayed, txInitialized, txReg, rxReg *)
  Record sp_state := mk_sp { p_tim : list nat; p_ci : bool; p_co : bool; p_edge : bool; p_req : bool; p_eow : bool;
                             p_txi : bool; p_tx : list bool; p_rx : list bool }.
  (** data.vld, data.dout, data.last; spi.miso *)
  Record sp_in := mk_spi { i_vld : bool; i_dout : list bool; i_last : bool; i_miso : bool }.
  (** data.rd, data.din; spi.clk, spi.mosi, spi.cs *)
  Record sp_out := mk_spo { o_rd : bool; o_din : list bool; o_clk : bool; o_mosi : bool; o_cs : bool }.

  (** def_val of the registers; txReg and rxReg have none *)
  Definition sp_init (tx rx : list bool) : sp_state :=
    mk_sp (map (timers_init periods) [0; 1; 2]) true true true true false false tx rx.

  Definition cell (l : list nat) : nat -> nat := fun k => nth k l 0.
  (** enableSig, master.py:177 *)
  Definition sp_en (s : sp_state) (i : sp_in) : bool := negb (p_eow s) && i_vld i.
  (** timersRst, master.py:145, if initWaitDone is [v] *)
  Definition sp_rst (s : sp_state) (i : sp_in) (v : bool) : bool := negb (sp_en s i) || (p_req s && v).
  (** the ticks of the timers if initWaitDone is [v] *)
  Definition sp_ticks (s : sp_state) (i : sp_in) (v : bool) : (nat -> nat) * list bool :=
    timers_step periods (cell (p_tim s)) (sp_en s i, sp_rst s i v).
  (** timersRst depends on initWaitDone, whose logic may depend on timersRst: [v] is a solution of this loop *)
  Definition stable (s : sp_state) (i : sp_in) (v : bool) : Prop := nth 1 (snd (sp_ticks s i v)) false = v.
  Definition stableb (s : sp_state) (i : sp_in) (v : bool) : bool := Bool.eqb (nth 1 (snd (sp_ticks s i v)) false) v.

  (** If(readTick, Concat(rxReg[(DATA_WIDTH - 1):], miso)); txReg << 1 *)
  Definition sh_in (l : list bool) (b : bool) : list bool := match l with [] => [] | _ :: l' => l' ++ [b] end.

  (** one cycle; the value of initWaitDone is a solution of its equation (nothing is claimed if there is none) *)
  Definition sp_step (s : sp_state) (i : sp_in) : sp_state * sp_out :=
    let initWaitDone := stableb s i true in
    let '(tim', ticks) := sp_ticks s i initWaitDone in
    let halfTick := nth 0 ticks false in
    let endOfWord := nth 2 ticks false in
    (* master.py:147-155 *)
    let ci' := if halfTick then negb (p_ci s) else p_ci s in
    let co' := if negb (p_req s) && halfTick then negb (p_co s) else p_co s in
    (* master.py:159-165: edgeDetector(clkIntern.next, initVal=1) *)
    let rise := ci' && negb (p_edge s) in
    let fall := negb ci' && p_edge s in
    let rdEn := rise && negb (p_req s) in
    let wrEn := fall && negb (p_req s) in
    (* master.py:100-114: isLastTick is endOfWordDelayed *)
    let tx' := if wrEn then (if p_txi s then sh_in (p_tx s) false else i_dout i) else p_tx s in
    let txi' := if wrEn then (if p_txi s then (if p_eow s then false else true) else true)
                else if p_eow s then false else p_txi s in
    (* master.py:119-122 *)
    let rx' := if rdEn then sh_in (p_rx s) (i_miso i) else p_rx s in
    (* master.py:189-193 *)
    let req' := if endOfWord then i_last i else if initWaitDone then false else p_req s in
    (mk_sp (map tim' [0; 1; 2]) ci' co' ci' req' endOfWord txi' tx' rx',
     mk_spo (p_eow s) (p_rx s) (p_co s) (hd false (p_tx s)) (negb (i_vld i))).
End Spi.
