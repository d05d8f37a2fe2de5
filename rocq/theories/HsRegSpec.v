From Verif Require Import Base StreamSpec HsRegModel.

(** Pins of HandshakedReg as a ready/valid cycle. *)
Definition hsr_obs {A} (c : hsr_in A * hsr_out A) : hs_cycle A A :=
  mk_hs (ri_vld (fst c)) (ro_rd (snd c)) (ri_data (fst c))
        (ro_vld (snd c)) (ri_rd (fst c)) (ro_data (snd c)).

(** Number of words the register can hold, from its parameters. *)
Definition latency_cap (l : latency) : nat := match l with LInt n => n | LBreak => 2 end.

(** Cycles from dataIn to an always ready dataOut for DELAY=0. *)
Definition latency_of (l : latency) : nat := match l with LInt n => n | LBreak => 1 end.
