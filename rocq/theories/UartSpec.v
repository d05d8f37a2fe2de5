(** The UART line: 1 while idle, a byte is a start bit 0, eight data bits, least significant first, and a stop bit 1. *)
From Verif Require Import Base UartModel.

Definition frame (b : list bool) : list bool := false :: b ++ [true].
(** the transmitter takes byte [b] in cycle [a] *)
Definition takes (t : list (tx_in * tx_out)) (a : nat) (b : list bool) : Prop :=
  exists c, nth_error t a = Some c /\ txi_vld (fst c) = true /\ txo_rd (snd c) = true /\ txi_data (fst c) = b.
(** the line is [v] in cycle [n] *)
Definition line (t : list (tx_in * tx_out)) (n : nat) (v : bool) : Prop :=
  exists c, nth_error t n = Some c /\ txo_txd (snd c) = v.

(** the byte taken by the transmitter / given by the receiver in a cycle *)
Definition taken (i : tx_in) (o : tx_out) : option (list bool) := if txi_vld i && txo_rd o then Some (txi_data i) else None.
Definition given (o : rx_out) : option (list bool) := if rxo_vld o then Some (rxo_data o) else None.

(** A received line: each byte comes after [gap] cycles of 1, its waveform [w] has at least the 10 * os * T + 1 cycles the receiver
    looks at and may be inaccurate: it falls in its first cycle and the second half of the samples of each bit is right. *)
Record rx_frame := mk_rxf { f_gap : nat; f_byte : list bool; f_wave : list bool }.
Definition good_frame (T os : nat) (f : rx_frame) : Prop :=
  length (f_byte f) = 8 /\ length (f_wave f) = 10 * os * T + 1 /\ nth_error (f_wave f) 0 = Some false /\
  forall k j, k < 10 -> os / 2 <= j -> j < os ->
    nth_error (f_wave f) ((k * os + j) * T) = nth_error (frame (f_byte f)) k.
Definition rx_line (fs : list rx_frame) : list bool := flat_map (fun f => repeat true (f_gap f) ++ f_wave f) fs.

(** what the receiver gives for it, cycle by cycle: each byte one cycle after its waveform, nothing else *)
Definition rx_expected (T os : nat) (fs : list rx_frame) : list (option (list bool)) :=
  None :: flat_map (fun f => repeat None (f_gap f + 10 * os * T) ++ [Some (f_byte f)]) fs.

(** The receiver connected to the transmitter. *)
Definition loop_step (R T os : nat) (s : tx_st * rx_st) (i : tx_in) : (tx_st * rx_st) * (tx_out * rx_out) :=
  let '(tx', o) := tx_step R (fst s) i in
  let '(rx', p) := rx_step T os (snd s) (txo_txd o) in
  ((tx', rx'), (o, p)).
