(** C100: MdioMaster puts each accepted request on the bus and returns the bits read from it. *)
From Verif Require Import Base MdioModel MdioSpec MdioProofs MdioCases.

(** a request which is not a read, accepted after any history: the bits seen at the rising edges of md.c up to the end of the
    transaction are the preamble and the frame of exactly this request; it ends within 128 half periods *)
Theorem C100_write_partial : forall DIV, 1 <= DIV -> forall tx rxr h i0 is, length rxr = 16 ->
  well_formed i0 -> i_vld i0 = true -> i_op i0 <> OP_READ ->
  let s := final (md_step DIV) (md_init DIV tx rxr) h in
  o_rd (snd (md_step DIV s i0)) = true -> 128 * DIV <= length is ->
  exists t k, upto finished (trace (md_step DIV) (fst (md_step DIV s i0)) is) = Some t /\ preamble k /\
    map snd (edges t) = repeat true k ++ write_frame i0 /\ (exists t0 i o, t = t0 ++ [(i, o)] /\ o_rd o = true).
Proof. exact mdio_write. Qed.
Print Assumptions C100_write_partial.
Example C100_write_witness : well_formed wreq /\ i_op wreq <> OP_READ /\
  o_rd (snd (md_step 3 (final (md_step 3) (md_init 3 tx0 rx0) (repeat (quiet_in true) 4)) wreq)) = true.
Proof. repeat split. discriminate. Qed.
Example C100_write_run :
  option_map (fun t => map snd (edges t)) (upto finished (trace (md_step 1) (fst (md_step 1 (md_init 1 tx0 rx0) wreq)) (noise 128))) =
  Some (repeat true 31 ++ write_frame wreq).
Proof. vm_compute. reflexivity. Qed.

(** a read: the line is released behind the address and the result is what was on the line at the last 16 rising edges *)
Theorem C100_read_partial : forall DIV, 1 <= DIV -> forall tx rxr h i0 is, length rxr = 16 ->
  well_formed i0 -> i_vld i0 = true -> i_op i0 = OP_READ ->
  let s := final (md_step DIV) (md_init DIV tx rxr) h in
  o_rd (snd (md_step DIV s i0)) = true -> 128 * DIV <= length is ->
  exists t k, upto finished (trace (md_step DIV) (fst (md_step DIV s i0)) is) = Some t /\ preamble k /\
    map snd (edges t) = repeat true k ++ read_frame i0 /\
    (exists t0 i o, t = t0 ++ [(i, o)] /\ o_vld o = true /\ o_data o = last_bits 16 (map fst (edges t))).
Proof. exact mdio_read. Qed.
Print Assumptions C100_read_partial.
Example C100_read_witness : well_formed rreq /\ i_op rreq = OP_READ /\ o_rd (snd (md_step 1 (md_init 1 tx0 rx0) rreq)) = true /\
  option_map (fun t => (map snd (edges t), map (fun c => o_data (snd c)) (skipn 126 t)))
    (upto finished (trace (md_step 1) (fst (md_step 1 (md_init 1 tx0 rx0) rreq)) (noise 128))) =
  Some (repeat true 31 ++ read_frame rreq,
    [[false; false; true; false; false; true; false; false; true; false; false; true; false; false; true; false]]).
Proof. vm_compute. repeat split; reflexivity. Qed.

(** the read data stay until they are taken *)
Theorem C100_rdata_held : forall DIV, 1 <= DIV -> forall tx rxr h is, length rxr = 16 ->
  rdata_held (trace (md_step DIV) (final (md_step DIV) (md_init DIV tx rxr) h) is).
Proof. exact mdio_rdata_held. Qed.
Print Assumptions C100_rdata_held.
Example C100_rdata_held_witness : length rx0 = 16 /\
  map (fun c => (o_vld (snd c), hd true (o_data (snd c))))
    (skipn 127 (trace (md_step 1) (md_init 1 tx0 rx0) (rreq :: noise 130))) =
  [(true, false); (true, false); (true, false); (true, false)].
Proof. vm_compute. split; reflexivity. Qed.

(** outside of a transaction the line is not driven *)
Theorem C100_released : forall DIV is s, Forall (fun c => finished (snd c) = true -> line (snd c) = true) (trace (md_step DIV) s is).
Proof. intros. apply mdio_idle_released. Qed.
Print Assumptions C100_released.
Example C100_released_witness : finished (snd (md_step 3 (md_init 3 tx0 rx0) wreq)) = true. Proof. reflexivity. Qed.

(** the line does not change with the rising edge of the clock, except at the end of a transaction *)
Theorem C100_hold_partial : forall DIV is s, hold_time finished (trace (md_step DIV) s is).
Proof. intros. apply mdio_hold. Qed.
Print Assumptions C100_hold_partial.
(** ... where the last bit of the written data disappears with the rising edge which samples it *)
Theorem C100_hold_refuted : exists DIV is, ~ hold_time (fun _ => false) (trace (md_step DIV) (md_init DIV tx0 rx0) is).
Proof.
  exists 1, (wreq :: noise 128). intros H. apply holdb_ok in H. revert H. vm_compute. discriminate.
Qed.
Print Assumptions C100_hold_refuted.

(** after a request which was waiting for the end of the previous one the preamble has only 31 ones, not 32 *)
Theorem C100_preamble_refuted : exists DIV is,
  map snd (edges (trace (md_step DIV) (md_init DIV tx0 rx0) is)) =
    repeat true 32 ++ write_frame wreq ++ repeat true 31 ++ write_frame wreq /\ last (write_frame wreq) true = false.
Proof. exists 2, (repeat wreq 508). rewrite fast_init by lia. vm_compute. split; reflexivity. Qed.
Print Assumptions C100_preamble_refuted.
