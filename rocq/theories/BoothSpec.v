From Verif Require Import Base StreamSpec BoothModel.

(** the number which a vector of [n] bits stands for in two's complement *)
Definition as_signed (n : nat) (v : Z) : Z := (if v <? 2 ^ (Z.of_nat n - 1) then v else v - 2 ^ Z.of_nat n)%Z.
(** what is seen on dataIn and dataOut *)
Definition bo_obs (c : bo_in * bo_out) : hs_cycle (Z * Z) Z :=
  mk_hs (oi_vld (fst c)) (oo_rd (snd c)) (oi_a (fst c), oi_b (fst c)) (oo_vld (snd c)) (oi_rd (fst c)) (oo_data (snd c)).
(** the operands are vectors of [n] bits *)
Definition bo_vec (n : nat) (i : bo_in) : Prop := (0 <= oi_a i < 2 ^ Z.of_nat n /\ 0 <= oi_b i < 2 ^ Z.of_nat n)%Z.
(** The results delivered are the products of the operands accepted, in order; at most one product is not delivered yet. *)
Definition products (n : nat) (t : list (hs_cycle (Z * Z) Z)) : Prop :=
  exists pending, length pending <= 1 /\
    map (fun o => (as_signed n (fst o) * as_signed n (snd o))%Z) (accepted t) =
      map (as_signed (2 * n)) (delivered t) ++ pending.
