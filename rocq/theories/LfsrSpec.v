(** Linear recurrences over bits. *)
From Verif Require Import Base.

(** xor of o(n), o(n-1), .. over the set bits of poly *)
Definition tap_xor (poly : list bool) (o : nat -> bool) (n : nat) : bool :=
  fold_left xorb (map (fun i => nth i poly false && o (n - i)) (seq 0 (length poly))) false.

