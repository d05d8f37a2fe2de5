From Verif Require Import Base BitonicModel BitonicProofs.
From Coq Require Import Permutation.

(** C24: [leb] is the total preorder of the data, [cmp] any comparison "keep" which agrees with it
    (both [<] and [<=] do); ITEMS = 2^k. *)
Theorem C24_bitonic_sorts :
  forall (A : Type) (u : A) (leb : A -> A -> bool) (cmp : A -> A -> bool) k (x : list A),
    length x = 2 ^ k ->
    (forall a b c, leb a b = true -> leb b c = true -> leb a c = true) ->
    (forall a b, leb a b = true \/ leb b a = true) ->
    (forall a b, (cmp a b = true -> leb a b = true) /\ (cmp a b = false -> leb b a = true)) ->
    let out := bitonic_sorter u cmp x in
    Permutation out x /\
    forall i j a b, i < j -> nth_error out i = Some a -> nth_error out j = Some b -> leb a b = true.
Proof. exact (fun A u => c24 u). Qed.
Print Assumptions C24_bitonic_sorts.

Example C24_hypotheses :
  (forall a b c, Nat.leb a b = true -> Nat.leb b c = true -> Nat.leb a c = true) /\
  (forall a b, Nat.leb a b = true \/ Nat.leb b a = true) /\
  (forall a b, (Nat.ltb a b = true -> Nat.leb a b = true) /\ (Nat.ltb a b = false -> Nat.leb b a = true)).
Proof. repeat split; intros; lia. Qed.
Example C24_example : bitonic_sorter 0 Nat.ltb [5; 3; 9; 3; 0; 7; 8; 1] = [0; 1; 3; 3; 5; 7; 8; 9].
Proof. reflexivity. Qed.
(** ITEMS which is not a power of two is accepted by the code but an output is lost (undriven). *)
Theorem C24_needs_power_of_two :
  exists x, length x = 3 /\ ~ Permutation (bitonic_sorter 99 Nat.ltb x) x.
Proof. exact c24_three. Qed.
Print Assumptions C24_needs_power_of_two.
