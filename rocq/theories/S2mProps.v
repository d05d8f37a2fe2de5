(** C106, C107, C108: Axi4streamToMem *)
From Verif Require Import Base S2mModel S2mSpec S2mProofs.

(** for bursts of more words: what appears on aw and w are the transfers which were started, one after another; idle says that all is sent;
    while busy, each cycle with ready aw, w and valid data does something *)
Theorem C106_transfers_partial : forall (D : Type) AW BYTES LEN MAX, 1 <= LEN -> 2 <= MAX < 256 -> forall a c (is : list (s2m_in D)) (i : s2m_in D),
  let t := trace (s2m_step AW BYTES LEN MAX) (s2m_init LEN a c) is in
  let o := snd (s2m_step AW BYTES LEN MAX (final (s2m_step AW BYTES LEN MAX) (s2m_init LEN a c) is) i) in
  exists rest, flat_map (transfer AW BYTES LEN MAX) (starts t) = events t ++ rest /\ (o_idle o = true -> rest = []) /\
    (o_idle o = false -> i_awr i = true -> i_wr i = true -> i_vld i = true -> length (events [(i, o)]) = 1).
Proof. exact s2m_transfers. Qed.
Print Assumptions C106_transfers_partial.
(** the words written are the words taken from the input *)
Theorem C106_data : forall (D : Type) AW BYTES LEN MAX s (is : list (s2m_in D)),
  let t := trace (s2m_step AW BYTES LEN MAX) s is in written t = taken t.
Proof. exact s2m_data. Qed.
Print Assumptions C106_data.
(** on/off and the base address are the values written last; so no transfer starts after off is written (see starts) *)
Theorem C106_registers : forall (D : Type) AW BYTES LEN MAX a c (is : list (s2m_in D)) (i : s2m_in D),
  let o := snd (s2m_step AW BYTES LEN MAX (final (s2m_step AW BYTES LEN MAX) (s2m_init LEN a c) is) i) in
  o_on o = last_wr i_ctl false is /\ o_base o = last_wr (fun x => option_map (wrap AW) (i_base x)) 0 is.
Proof. exact s2m_regs. Qed.
Print Assumptions C106_registers.
(** valid is held with the same values until it is taken *)
Theorem C106_held : forall (D : Type) AW BYTES LEN MAX s (i j : s2m_in D),
  let o := snd (s2m_step AW BYTES LEN MAX s i) in let o' := snd (s2m_step AW BYTES LEN MAX (fst (s2m_step AW BYTES LEN MAX s i)) j) in
  (o_awv o = true -> i_awr i = false -> o_awv o' = true /\ o_addr o' = o_addr o /\ o_len o' = o_len o) /\
  (o_wv o = true -> i_wr i = false -> i_vld j = true -> i_data j = i_data i -> o_wv o' = true /\ o_data o' = o_data o /\ o_last o' = o_last o).
Proof. exact s2m_held. Qed.
Print Assumptions C106_held.
Example C106_witness : let t := trace (s2m_step 10 4 5 2) (s2m_init 5 3 3) ex_ins in
  starts t = [100] /\ events t = transfer 10 4 5 2 100 /\
  events t = [Aw 100 1; W false; W true; Aw 108 1; W false; W true; Aw 116 0; W true] /\ written t = [5; 6; 7; 8; 9].
Proof. vm_compute. repeat split. Qed.
(** MAX_BUTST_LEN = 1: the first burst of one word never gets last, words of the other bursts follow without an address *)
Theorem C106_single_word_refuted : let t := trace (s2m_step 10 4 2 1) (s2m_init 2 0 0) ([wr 100; on true; stall 0] ++ map go (seq 0 8)) in
  starts t = [100] /\ transfer 10 4 2 1 100 = [Aw 100 0; W true; Aw 104 0; W true] /\ events t = Aw 100 0 :: repeat (W false) 7.
Proof. vm_compute. repeat split. Qed.
Print Assumptions C106_single_word_refuted.

(** both flags can be read, at the two top bits *)
Theorem C107_control_partial : forall BYTES on idle, 1 <= BYTES ->
  Nat.testbit (control_din BYTES on idle) (8 * BYTES - 1) = on /\ Nat.testbit (control_din BYTES on idle) (8 * BYTES - 2) = idle /\
  forall n, n < 8 * BYTES - 2 -> Nat.testbit (control_din BYTES on idle) n = false.
Proof. exact control_bits. Qed.
Print Assumptions C107_control_partial.
(** not at bits 0 and 1 *)
Theorem C107_control_refuted : forall BYTES, 1 <= BYTES ->
  exists on idle, Nat.testbit (control_din BYTES on idle) 0 <> on /\ Nat.testbit (control_din BYTES on idle) 1 <> idle.
Proof. exact control_bad. Qed.
Print Assumptions C107_control_refuted.
Example C107_case : control_din 1 true false = 128 /\ control_din 1 false true = 64.
Proof. split; reflexivity. Qed.

(** bursts of a transfer stay in a page of 4 KiB if the size of burst divides 4096 and the base address *)
Theorem C108_page_partial : forall AW BYTES LEN MAX b k, 1 <= MAX -> 1 <= BYTES -> 12 <= AW -> Nat.divide (MAX * BYTES) 4096 -> Nat.divide (MAX * BYTES) b ->
  k < bursts LEN MAX -> forall j, j < size_of LEN MAX k * BYTES ->
  ((b + k * MAX * BYTES) mod 2 ^ AW + j) / 4096 = ((b + k * MAX * BYTES) mod 2 ^ AW) / 4096.
Proof. exact s2m_4k. Qed.
Print Assumptions C108_page_partial.
Example C108_case : Nat.divide (16 * 4) 4096 /\ Nat.divide (16 * 4) 192 /\ 2 < bursts 33 16 /\ size_of 33 16 2 = 1 /\ size_of 33 16 1 = 16.
Proof. split; [exists 64; reflexivity|]. split; [exists 3; reflexivity|]. split; [apply Nat.ltb_lt; reflexivity|]. split; reflexivity. Qed.
(** a burst of 4 words of 4 bytes at 4088 *)
Theorem C108_page_refuted : forall AW, 13 <= AW -> exists is : list (s2m_in nat), In (Aw 4088 3) (events (trace (s2m_step AW 4 8 4) (s2m_init 8 0 0) is)).
Proof. exact cross_4k. Qed.
Print Assumptions C108_page_refuted.
