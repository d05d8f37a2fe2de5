From Verif Require Import Base AddrModel.
Local Open Scope N_scope.
(** every region is moved to addresses which fit AW bits *)
Definition targets_fit (AW : N) (mem_map : list map_item) : Prop :=
  forall m, In m mem_map -> mi_out m + mi_size m <= 2 ^ AW.
(** [x] is a power of two dividing [a] *)
Definition block (a x : N) : Prop := (exists k, x = 2 ^ k) /\ a mod x = 0.
(** the address lies in the input range of the region *)
Definition inside (m : map_item) (a : N) : Prop := mi_in m <= a < mi_in m + mi_size m.
