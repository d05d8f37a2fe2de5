(** An array of items stored in several memories. *)
From Coq Require Import NArith List.
From Verif Require Import Base SapModel.
Import ListNotations.
Local Open Scope N_scope.

(** words of one item, items in the memories, bits of an item *)
Definition per_item (c : sg_cfg) : nat := match sg_wpi c with Some p => p | None => 1%nat end.
Definition items (c : sg_cfg) : nat := (sg_sz c / per_item c)%nat.
Definition item_bits (c : sg_cfg) : N := sg_w c * N.of_nat (sg_n c) * N.of_nat (per_item c).
Definition proper (c : sg_cfg) : Prop := (1 <= sg_n c)%nat /\ (1 <= per_item c)%nat /\ 1 <= sg_w c.
(** accesses are to existing items, values fit *)
Definition op_fits (c : sg_cfg) (o : sg_op) : Prop := match o with SgSet i v => (i < items c)%nat /\ v < 2 ^ item_bits c | SgClean => True end.
(** the array as a plain array: what is read from index j *)
Fixpoint last_value (l : list sg_op) (j : nat) (v0 : N) : N :=
  match l with
  | [] => v0
  | SgSet i v :: l' => last_value l' j (if (i =? j)%nat then v else v0)
  | SgClean :: l' => last_value l' j 0
  end.
