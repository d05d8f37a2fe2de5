From Verif Require Import Base CountLeadingModel CountLeadingProofs.

(** C23: data_out = c says that the upper c bits are [bit] and the next one is not; it fits the output. *)
Theorem C23_count_leading :
  forall k bit (d : list bool), length d = 2 ^ S k ->
    let c := count_leading k bit d in
    (forall i, i < c -> nth_error d i = Some bit) /\
    (c < length d -> nth_error d c = Some (negb bit)) /\
    c <= length d /\ c < 2 ^ log2ceil (length d + 1).
Proof. exact c23. Qed.
Print Assumptions C23_count_leading.

Example C23_example : count_leading 2 false [false; false; false; false; false; true; false; true] = 5 /\
  count_leading 1 true [true; true; true; true] = 4 /\ count_leading 1 true [true; false; true; true] = 1.
Proof. repeat split. Qed.
