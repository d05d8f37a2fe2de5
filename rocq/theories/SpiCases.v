(** words used in the examples: PRESC = 4, SS = 1 *)
From Verif Require Import Base SpiModel SpiSpec.
Definition bits1 : list bool := [true; false; false; true; true; true; false; true].
Definition bits2 : list bool := [false; false; true; true; false; true; false; false].
Definition noise (n : nat) : list bool := map (fun k => (k * k) mod 3 =? 0) (seq 0 n).
Definition rx0 : list bool := repeat false 8.
(** the last word of a transfer and the next one without a gap *)
Definition two_transfers : list word := [mk_w [true] bits1 true (noise 37); mk_w [] bits2 true (noise 37)].
(** two words of one transfer with a gap between them *)
Definition one_transfer : list word := [mk_w [] bits1 false (noise 37); mk_w [true; true] bits2 true (noise 33)].
Definition busy (n : nat) : list sp_in := repeat (mk_spi true bits1 true false) n.
