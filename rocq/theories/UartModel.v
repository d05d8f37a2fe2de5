(** Models of hwtLib/peripheral/uart/tx.py [UartTx] and hwtLib/peripheral/uart/rx.py [UartRx].
    Bit vectors are lists, the least significant bit first. *)
From Verif Require Import Base TimerModel.

(** [UartTx]: [R] is BIT_RATE = FREQ // BAUD >= 1 (tx.py:43-45).  Registers data (undefined after reset), en, reg_txd and those
    of the timers of BIT_RATE and BIT_RATE * 10. *)
Record tx_st := mk_tx { tx_data : list bool; tx_en : bool; tx_tmr : nat -> nat; tx_txd : bool }.
(** dataIn.vld, dataIn.data *)
Record tx_in := mk_txi { txi_vld : bool; txi_data : list bool }.
(** dataIn.rd, txd *)
Record tx_out := mk_txo { txo_rd : bool; txo_txd : bool }.

Definition tx_init (R : nat) (d0 : list bool) : tx_st := mk_tx d0 false (timers_init [R; R * 10]) true.

(** tx.py:49-71 *)
Definition tx_step (R : nat) (s : tx_st) (i : tx_in) : tx_st * tx_out :=
  let '(tmr', ticks) := timers_step [R; R * 10] (tx_tmr s) (tx_en s, false) in
  let tick := nth 0 ticks false in
  let last := nth 1 ticks false in
  let load := negb (tx_en s) && txi_vld i in
  let shift := tick && tx_en s in
  (mk_tx (if load then false :: txi_data i ++ [true] else if shift then tl (tx_data s) ++ [true] else tx_data s)
         (if load then true else if shift && last then false else tx_en s)
         tmr'
         (if shift then hd false (tx_data s) else tx_txd s),
   mk_txo (negb (tx_en s)) (tx_txd s)).

(** [UartRx]: [T] is FREQ // BAUD // OVERSAMPLING, [os] OVERSAMPLING (a power of two, at least 8, rx.py:46).  Registers en, first,
    RxD_data (undefined after reset), RxD_sync, those of the three timers and of oversample. *)
Record rx_st := mk_rx { rx_en : bool; rx_first : bool; rx_data : list bool; rx_sync : bool;
                        rx_t1 : nat -> nat; rx_t2 : nat -> nat; rx_t3 : nat -> nat; rx_cntr : nat }.
(** dataOut.vld, dataOut.data *)
Record rx_out := mk_rxo { rxo_vld : bool; rxo_data : list bool }.

Definition rx_init (T os : nat) (d0 : list bool) : rx_st :=
  mk_rx false true d0 true (timers_init [T]) (timers_init [os]) (timers_init [10]) 0.

(** one timer of ClkBuilder.timer: next counters and the tick *)
Definition timer1 (p : nat) (c : nat -> nat) (en rst : bool) : (nat -> nat) * bool :=
  let '(c', ticks) := timers_step [p] c (en, rst) in (c', nth 0 ticks false).

(** rx.py:52-91; the input is rxd.  The counter of oversample is not connected to rstSig (clkBuilder.py:117-127). *)
Definition rx_step (T os : nat) (s : rx_st) (rxd_in : bool) : rx_st * rx_out :=
  let '(t1', sample_tick) := timer1 T (rx_t1 s) (rx_en s) (negb (rx_en s)) in
  let '(t2', rxd_vld) := timer1 os (rx_t2 s) sample_tick (negb (rx_en s)) in
  let rxd := os / 2 - 1 <? rx_cntr s in
  let cntr' := if rxd_vld then 0 else if sample_tick && rx_sync s then winc (log2ceil os + 1) (rx_cntr s) else rx_cntr s in
  let '(t3', is_last) := timer1 10 (rx_t3 s) rxd_vld (negb (rx_en s)) in
  let not_start := rx_first s && rxd_vld && rxd in
  let en' := if rx_en s then (if rxd_vld then (if not_start then false else negb is_last) else rx_en s)
             else if negb (rx_sync s) then true else rx_en s in
  let first' := if rx_en s && rxd_vld then (if not_start then true else is_last) else rx_first s in
  let data' := if rx_en s && rxd_vld then tl (rx_data s) ++ [rxd] else rx_data s in
  (mk_rx en' first' data' rxd_in t1' t2' t3' cntr',
   mk_rxo (is_last && negb (hd false (rx_data s)) && rxd) (tl (rx_data s))).
