From Coq Require Import NArith.
(** [a] and [b] differ in exactly one of the bits 0..w-1 and in no other bit. *)
Definition one_bit_apart (w a b : N) : Prop :=
  exists k, (k < w)%N /\ forall j, N.testbit a j <> N.testbit b j <-> j = k.
