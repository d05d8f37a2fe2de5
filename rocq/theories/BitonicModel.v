(** Model of hwtLib/logic/bitonicSorter.py [BitonicSorter].  [cmp] is cmpFn (true: keep), [u] the
    value of a signal without driver (bitonic_compare of an odd number of items leaves one). *)
From Verif Require Import Base.

Section Bitonic.
  Context {A : Type} (u : A).

  (** bitonic_compare, bitonicSorter.py:75-88 *)
  Definition bitonic_compare (cmp : A -> A -> bool) (x : list A) : list A :=
    let dist := length x / 2 in
    let lo := firstn dist x in
    let hi := firstn dist (skipn dist x) in
    map (fun p => if cmp (fst p) (snd p) then fst p else snd p) (combine lo hi) ++
    map (fun p => if cmp (fst p) (snd p) then snd p else fst p) (combine lo hi) ++
    repeat u (length x - 2 * dist).

  (** bitonic_merge, bitonicSorter.py:61-73; [fuel] bounds the recursion depth *)
  Fixpoint bitonic_merge (fuel : nat) (cmp : A -> A -> bool) (x : list A) : list A :=
    match fuel with
    | 0 => x
    | S fuel' =>
        if length x =? 1 then x
        else
          let x' := bitonic_compare cmp x in
          let off := length x' / 2 in
          bitonic_merge fuel' cmp (firstn off x') ++ bitonic_merge fuel' cmp (skipn off x')
    end.

  (** bitonic_sort, bitonicSorter.py:46-59: the second half is sorted with the negated comparison *)
  Fixpoint bitonic_sort (fuel : nat) (cmp : A -> A -> bool) (x : list A) : list A :=
    match fuel with
    | 0 => x
    | S fuel' =>
        if length x <=? 1 then x
        else
          let off := length x / 2 in
          let first := bitonic_sort fuel' cmp (firstn off x) in
          let second := bitonic_sort fuel' (fun a b => negb (cmp a b)) (skipn off x) in
          bitonic_merge (length x) cmp (first ++ second)
    end.

  (** hwImpl, bitonicSorter.py:90-94 *)
  Definition bitonic_sorter (cmp : A -> A -> bool) (inputs : list A) : list A :=
    bitonic_sort (length inputs) cmp inputs.
End Bitonic.
