(** Model of hwtLib/logic/countLeading.py.  A bit vector is the list of its bits, most
    significant bit first (so that Concat is list concatenation). *)
From Verif Require Import Base.

(** value of a bit vector, MSB first *)
Definition val (l : list bool) : nat := fold_left (fun a b => 2 * a + Nat.b2n b) l 0.

Definition all_eq (bit : bool) (l : list bool) : bool := forallb (Bool.eqb bit) l.

(** _count_leading_recurse, countLeading.py:33-57, for inputs of 2^(k+1) bits; [bit] is bit_to_count *)
Fixpoint cl_recurse (k : nat) (bit : bool) (d : list bool) : list bool :=
  match k with
  | 0 => [Bool.eqb (hd false d) bit]                     (* in_width == 2: data_in[1] or its negation *)
  | S k' =>
      let h := length d / 2 in
      let lhs := firstn h d in                           (* data_in[:in_width // 2], the upper half *)
      let rhs := skipn h d in
      let left_full := all_eq bit lhs in
      left_full :: cl_recurse k' bit (if left_full then rhs else lhs)
  end.

(** count_leading, countLeading.py:59-77, DATA_WIDTH = 2^(k+1) (isPow2 is asserted, width 1 is
    refused by the assert in the recursion); the value of data_out *)
Definition count_leading (k : nat) (bit : bool) (d : list bool) : nat :=
  if all_eq bit d then length d else val (false :: cl_recurse k bit d).
