(** A bundle for the examples. *)
From Verif Require Import Base UdbModel.
Definition ub_ds : list ud :=
  [mk_ud 1 [18; 1; 8] (KDev 8); mk_ud 2 [9; 2] KOther; mk_ud 5 [7; 5; 1; 1] (KEp 1 false 1 1 16); mk_ud 5 [7; 5; 130; 1] (KEp 2 true 1 1 32);
   mk_ud 5 [7; 5; 130; 0] (KEp 2 true 0 0 48)].
(** a bulk endpoint of a virtual serial port *)
Definition ub_bulk : list ud := [mk_ud 1 [18; 1; 8] (KDev 8); mk_ud 5 [7; 5; 129; 2] (KEp 1 true 2 0 64)].
