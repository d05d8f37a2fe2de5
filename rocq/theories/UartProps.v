(** C55: the UART transmitter; C56: the UART receiver; C57: the receiver connected to the transmitter. *)
From Verif Require Import Base UartModel UartSpec UartProofs.

(** C55: from the cycle after a byte is taken the line carries, each for exactly R clock cycles, R cycles later, the start bit, the
    eight data bits and the stop bit; the line is 0 only in a 0 bit of a byte which was taken; and the transmitter refuses a byte exactly
    during the 10 R cycles after it took one. *)
Theorem C55_uart_tx R (HR : 1 <= R) d0 is : Forall (fun i => length (txi_data i) = 8) is ->
  let t := trace (tx_step R) (tx_init R d0) is in
  (forall a b k m, takes t a b -> k < 10 -> m < R -> a + 1 + (k + 1) * R + m < length t ->
     exists v, nth_error (frame b) k = Some v /\ line t (a + 1 + (k + 1) * R + m) v) /\
  (forall n, line t n false -> exists a b k m, takes t a b /\ m < R /\ n = a + 1 + (k + 1) * R + m /\ nth_error (frame b) k = Some false) /\
  (forall n c, nth_error t n = Some c ->
     (txo_rd (snd c) = false <-> exists a b, takes t a b /\ a < n /\ n <= a + 10 * R)).
Proof.
  exact (fun H => conj (fun a b k m => tx_line_bits R HR d0 is a b k m H)
                       (conj (fun n => tx_line_low R HR d0 is n H) (fun n c => tx_ready R HR d0 is n c H))).
Qed.
Print Assumptions C55_uart_tx.
(** R = 2, two bytes one after the other *)
Example C55_example : let t := trace (tx_step 2) (tx_init 2 (repeat false 10)) (repeat (mk_txi true (bt 5)) 3) in
  Forall (fun i => length (txi_data i) = 8) (repeat (mk_txi true (bt 5)) 3) /\ takes t 0 (bt 5) /\ line t 0 true.
Proof. split; [repeat constructor|]. split; eexists; repeat split; reflexivity. Qed.

(** C56: on any line made of bytes with gaps of any length between them, whose waveforms fall on time and are right in the second half of
    the samples of each bit, the receiver gives exactly these bytes, one cycle after the end of each. *)
Theorem C56_uart_rx T os d0 fs x : 1 <= T -> 2 <= os -> length d0 = 9 -> Forall (good_frame T os) fs ->
  map given (outs (rx_step T os) (rx_init T os d0) (rx_line fs ++ [x])) = rx_expected T os fs.
Proof. exact (rx_correct T os d0 fs x). Qed.
Print Assumptions C56_uart_rx.
(** a perfect waveform with 16 samples of 4 cycles for each bit, and one with glitches in the first half of each bit *)
Example C56_example : good_frame (64 / 16) 16 (mk_rxf 3 (bt 75) (wave 64 16 (bt 75))).
Proof. now apply wave_good; [lia|lia|cbn; lia|]. Qed.
Example C56_example_glitch : good_frame 1 8 (mk_rxf 0 (bt 1)
  ([false; true; true; true; false; false; false; false] ++ repeat true 8 ++
   concat (repeat [false; true; false; true; false; false; false; false] 7) ++ [false; false; true; false; true; true; true; true; false])).
Proof.
  repeat split; try reflexivity. intros k j Hk H1 H2. cbn in H1.
  do 10 (destruct k as [|k]; [do 8 (destruct j as [|j]; [try lia; reflexivity|]); lia|]). lia.
Qed.

(** C57: with the transmitter and the receiver of the same baud rate connected to each other, if the baud rate which the receiver gets by
    dividing twice is close enough to that of the transmitter, each byte is given R + 10 * os * (R / os) + 2 cycles after it was taken. *)
Theorem C57_uart_loopback_partial R os d0 e0 is : 2 <= os -> os <= R -> 9 * (R mod os) <= os / 2 * (R / os) ->
  length e0 = 9 -> Forall (fun i => length (txi_data i) = 8) is ->
  let o := outs (loop_step R (R / os) os) (tx_init R d0, rx_init (R / os) os e0) is in
  map (fun o => given (snd o)) o =
  firstn (length is) (repeat None (R + 10 * os * (R / os) + 2) ++ map (fun c => taken (fst c) (fst (snd c))) (combine is o)).
Proof. exact (fun Hos HR Hacc => loop_correct R os Hos HR Hacc d0 e0 is). Qed.
Print Assumptions C57_uart_loopback_partial.
(** the default parameters: 100 MHz, 115200 Bd, 16 samples *)
Example C57_example : 2 <= 16 /\ 16 <= 868 /\ 9 * (868 mod 16) <= 16 / 2 * (868 / 16) /\ length (repeat false 9) = 9.
Proof. repeat split; apply Nat.leb_le; vm_compute; reflexivity. Qed.

(** the assertions of the components allow parameters with which a wrong byte is received *)
Theorem C57_uart_loopback_refuted : exists R os k d0 e0 is b b' n,
  os = 2 ^ k /\ 8 <= os /\ os <= R /\ length d0 = 10 /\ length e0 = 9 /\ length b = 8 /\
  Forall (fun i => txi_data i = b) is /\
  nth_error (map (fun o => given (snd o)) (outs (loop_step R (R / os) os) (tx_init R d0, rx_init (R / os) os e0) is)) n = Some (Some b') /\
  b' <> b.
Proof. exact loop_wrong. Qed.
Print Assumptions C57_uart_loopback_refuted.
