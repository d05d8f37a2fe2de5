From Verif Require Import Base StreamSpec ResizerModel.

Definition up_obs {A} (c : up_in A * up_out A) : hs_cycle A (list A) :=
  mk_hs (ui_vld (fst c)) (uo_rd (snd c)) (ui_data (fst c)) (uo_vld (snd c)) (ui_rd (fst c)) (uo_data (snd c)).
Definition dn_obs {A} (c : dn_in A * dn_out A) : hs_cycle (list A) A :=
  mk_hs (di_vld (fst c)) (do_rd (snd c)) (di_data (fst c)) (do_vld (snd c)) (di_rd (fst c)) (do_data (snd c)).

(** Packing law: the delivered words, cut into parts, followed by the parts still inside, are
    the accepted parts; every delivered word has [factor] parts. *)
Definition packs {A} (factor : nat) (t : list (hs_cycle A (list A))) : Prop :=
  (forall w, In w (delivered t) -> length w = factor) /\
  exists inside, accepted t = concat (delivered t) ++ inside /\ length inside < factor.

(** Unpacking law. *)
Definition unpacks {A} (cap : nat) (t : list (hs_cycle (list A) A)) : Prop :=
  exists inside, concat (accepted t) = delivered t ++ inside /\ length inside <= cap.

(** In this cycle the consumer takes the word if one is offered. *)
Definition no_stall {A} (c : up_in A * up_out A) : Prop := uo_vld (snd c) = true -> ui_rd (fst c) = true.
