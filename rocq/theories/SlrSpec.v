(** Pins of HsSlrCrossing as a ready/valid cycle. *)
From Verif Require Import Base StreamSpec SlrModel.
Definition slr_obs {A} (c : slr_in A * slr_out A) : hs_cycle A A :=
  mk_hs (xi_vld (fst c)) (xo_rd (snd c)) (xi_data (fst c)) (xo_vld (snd c)) (xi_rd (fst c)) (xo_data (snd c)).
(** the word which is offered in the first cycle after reset, if any *)
Definition first_word {A} (is : list (slr_in A)) : list A := match is with i :: _ => if xi_vld i then [xi_data i] else [] | [] => [] end.
