From Verif Require Import Base StreamSpec ReorderModel.

(** what is seen on the two channels *)
Definition rb_obs {A} (c : rb_in A * rb_out A) : hs_cycle (nat * A) A :=
  mk_hs (bi_vld (fst c)) (bo_rd (snd c)) (bi_id (fst c), bi_data (fst c)) (bo_vld (snd c)) (bi_rd (fst c)) (bo_data (snd c)).
(** the data of the words with identifier [x], in the order of their arrival *)
Definition with_id {A} (x : nat) (l : list (nat * A)) : list A := map snd (filter (fun p => fst p =? x) l).
(** Word number [k] of the sequence restored from the accepted words [l] with [N] identifiers 0, 1, ..., N-1, 0, 1, ...:
    the identifier counts the words of the sequence, so it is the (k / N)-th word which came with the identifier k mod N. *)
Definition seq_word {A} (N : nat) (l : list (nat * A)) (k : nat) : option A := nth_error (with_id (k mod N) l) (k / N).
