(** C62: the pseudo LRU tree. *)
From Verif Require Import Base PlruModel PlruSpec PlruProofs.

(** Registers of 1 bit (2 items) and 3 bits (4 items) are the only full trees which the constructor accepts. *)
Theorem C62_plru_sizes (w : nat) : lru_ok w = true -> (exists d, 1 <= d /\ w = 2 ^ d - 1) -> w = 1 \/ w = 3.
Proof. exact (lru_widths w). Qed.
Print Assumptions C62_plru_sizes.
(** get_lru gives an item of the subtree which the root points to (the half of the less recently used items), for both sizes.
    Missing: the choice inside of the half is the other one than documented, see below. *)
Theorem C62_plru_half_partial (b0 b1 b2 : bool) :
  (exists v, victim [b0; b1; b2] = Some v /\ v / 2 = doc_replace b0 b1 b2 / 2) /\ exists v, victim [b0] = Some v /\ v < 2.
Proof. exact (plru_half b0 b1 b2). Qed.
Print Assumptions C62_plru_half_partial.
(** The item given by get_lru never is the one of the table in the documentation, and the next state differs too. *)
Theorem C62_plru_table_refuted :
  (forall b0 b1 b2, victim [b0; b1; b2] <> Some (doc_replace b0 b1 b2)) /\
  (exists k b0 b1 b2, mark_use_many [b0; b1; b2] (one_item 4 k) <> doc_next k b0 b1 b2).
Proof. exact doc_table_bad. Qed.
Print Assumptions C62_plru_table_refuted.
(** In every state there is an item which, when marked as used, is at once the one to be replaced. *)
Theorem C62_plru_used_refuted (r : list bool) : length r = 1 \/ length r = 3 -> ~ used_is_kept r.
Proof. exact (never_kept r). Qed.
Print Assumptions C62_plru_used_refuted.
(** The reason, for trees of any size: the result of mark_use_many does not depend on its argument ... *)
Theorem C62_plru_mask_ignored (r m m' : list bool) : Nat.odd (length r) = true -> mark_use_many r m = mark_use_many r m'.
Proof. exact (mark_ignores r m m'). Qed.
Print Assumptions C62_plru_mask_ignored.
(** ... and the first call fixes the register, so the item to be replaced never changes again, whatever is used. *)
Theorem C62_plru_stuck (r m : list bool) (ms : list (list bool)) : Nat.odd (length r) = true ->
  fold_left mark_use_many ms (mark_use_many r m) = mark_use_many r m.
Proof. exact (mark_many_stuck r ms m). Qed.
Print Assumptions C62_plru_stuck.
Example C62_example : mark_use_many [true; false; true] (one_item 4 3) = [false; false; false] /\
  victim [false; false; false] = Some 1 /\ doc_replace false false false = 0 /\ doc_next 3 true false true = [false; false; false] /\
  lru_reg_width 4 = 3 /\ lru_reg_width 8 = 7 /\ lru_ok 7 = false /\ lru_ok 3 = true.
Proof. repeat split. Qed.
