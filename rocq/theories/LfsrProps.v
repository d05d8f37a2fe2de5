From Verif Require Import Base BaseFacts LfsrModel LfsrSpec LfsrProofs.

(** C29: with the highest tap set and a non-zero seed the register never becomes zero and dataOut is periodic from the start. *)
Theorem C29_lfsr_periodic : forall (poly init : list bool),
  last poly false = true -> length init = length poly -> (exists i, nth i init false = true) ->
  (forall n, exists i, nth i (lfsr_state poly init n) false = true) /\
  (exists p, 1 <= p < 2 ^ length poly /\ forall n, lfsr_out poly init (n + p) = lfsr_out poly init n).
Proof. exact c29. Qed.
Print Assumptions C29_lfsr_periodic.
(** the default parameters: POLY_WIDTH 8, POLY 0x88, INIT 1, and the sequence of the test in the repository *)
Example C29_default : let poly := [false; false; false; true; false; false; false; true] in
  let init := true :: repeat false 7 in
  last poly false = true /\ length init = length poly /\ nth 0 init false = true /\
  map (lfsr_out poly init) (seq 0 13) =
  [true; false; false; false; true; false; false; false; false; false; false; false; true].
Proof. repeat split. Qed.

(** C29: dataOut satisfies the linear recurrence given by the taps. *)
Theorem C29_lfsr_recurrence : forall (poly init : list bool) (n : nat),
  poly <> [] -> length init = length poly -> length poly <= n + 1 ->
  lfsr_out poly init (n + 1) = tap_xor poly (lfsr_out poly init) n.
Proof. exact c29_rec. Qed.
Print Assumptions C29_lfsr_recurrence.
