(** Decimal digits, and converters which give one result per word. *)
From Verif Require Import Base StreamSpec BcdModel.
Local Open Scope N_scope.

(** what an observer of the two channels sees in a cycle *)
Definition bcd_obs {A B} (c : bcd_in A * bcd_out B) : hs_cycle A B :=
  mk_hs (bi_vld (fst c)) (bo_rd (snd c)) (bi_data (fst c)) (bo_vld (snd c)) (bi_rd (fst c)) (bo_data (snd c)).

(** [ds] are the [n] decimal digits of [x], lowest first *)
Definition decimal (n : nat) (x : N) (ds : list N) : Prop :=
  length ds = n /\ forall i, (i < n)%nat -> nth i ds 0 = (x / 10 ^ N.of_nat i) mod 10.

(** value of a list of decimal digits, lowest first *)
Fixpoint dec_value (ds : list N) : N := match ds with [] => 0 | d :: ds' => d + 10 * dec_value ds' end.

(** every delivered word is the image of the accepted word of the same number; at most one is being converted *)
Definition one_to_one {A B} (R : A -> B -> Prop) (t : list (hs_cycle A B)) : Prop :=
  exists fin rest, accepted t = fin ++ rest /\ (length rest <= 1)%nat /\ Forall2 R fin (delivered t).
