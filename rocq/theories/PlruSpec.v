From Verif Require Import Base PlruModel.

(** the number of a list of bits with the most significant bit first *)
Definition msb_num (l : list bool) : nat := fold_left (fun n (b : bool) => 2 * n + (if b then 1 else 0)) l 0.
(** the item chosen for the replacement *)
Definition victim (r : list bool) : option nat := option_map msb_num (get_lru r).
(** the mask of one item *)
Definition one_item (items k : nat) : list bool := map (Nat.eqb k) (seq 0 items).
(** The promise of the algorithm: the item which was just used is not the one to be replaced. *)
Definition used_is_kept (r : list bool) : Prop :=
  forall k, k < length r + 1 -> victim (mark_use_many r (one_item (length r + 1) k)) <> Some k.
(** The column "replace" of the table in the documentation (pseudo_lru.py:28-37), for 4 items: bit_0, bit_1, bit_2 to the line. *)
Definition doc_replace (b0 b1 b2 : bool) : nat :=
  if b0 then (if b2 then 3 else 2) else (if b1 then 1 else 0).
(** The column "ref to / next state": bits after the use of a line. *)
Definition doc_next (line : nat) (b0 b1 b2 : bool) : list bool :=
  match line with
  | 0 => [true; true; b2] | 1 => [true; false; b2] | 2 => [false; b1; true] | _ => [false; b1; false]
  end.
