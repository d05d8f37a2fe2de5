From Verif Require Import Base OneHotModel OneHotProofs.

(** C22: with en=1 exactly the bit of the index is set, with en=0 none. *)
Theorem C22_bin_to_onehot :
  forall dw v en, 0 < dw -> v < dw ->
    match mod_bin_to_onehot dw v en with
    | Some l => length l = dw /\ forall i, i < dw -> nth_error l i = Some (en && (v =? i))
    | None => forall w, dw <> 2 ^ w
    end.
Proof. exact c22_mod. Qed.
Print Assumptions C22_bin_to_onehot.

(** The decoder returns the index of the lowest set bit, in range, and vld = some bit is set. *)
Theorem C22_onehot_to_bin :
  forall (l : list bool), l <> [] ->
    exists r, fst (mod_onehot_to_bin l) = Some r /\ r < 2 ^ log2ceil (length l) /\
      (forall i, nth_error l i = Some true -> (forall j, j < i -> nth_error l j = Some false) -> r = i) /\
      (snd (mod_onehot_to_bin l) = true <-> In true l).
Proof. exact c22_dec. Qed.
Print Assumptions C22_onehot_to_bin.

Theorem C22_onehot_roundtrip :
  forall w v en, v < 2 ^ w ->
    mod_onehot_to_bin (bin_to_onehot w v en) = (Some (if en then v else 2 ^ w - 1), en).
Proof. exact c22_round. Qed.
Print Assumptions C22_onehot_roundtrip.

Example C22_example : mod_onehot_to_bin [false; false; true; true] = (Some 2, true) /\
  mod_bin_to_onehot 4 2 true = Some [false; false; true; false] /\ mod_bin_to_onehot 6 2 true = None.
Proof. repeat split. Qed.
