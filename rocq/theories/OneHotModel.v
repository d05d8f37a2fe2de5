(** Models of hwtLib/logic/binToOneHot.py and hwtLib/logic/oneHotToBin.py.
    A bit vector is the list of its bits, least significant bit first. *)
From Verif Require Import Base.

(** binToOneHot, binToOneHot.py:15-26: [w] is the width of [sig], the result has 2^w bits *)
Definition bin_to_onehot (w : nat) (v : nat) (en : bool) : list bool :=
  if en then map (fun i => v =? i) (seq 0 (2 ^ w)) else repeat false (2 ^ w).

(** BinToOneHot.hwImpl, binToOneHot.py:46-56: DATA_WIDTH = 2^w (for another DATA_WIDTH > 1 the
    assignment of the 2^log2ceil(DATA_WIDTH) bit result to dout is refused by hwt), or 1. *)
Definition mod_bin_to_onehot (data_width : nat) (v : nat) (en : bool) : option (list bool) :=
  if data_width =? 1 then Some [en]
  else if 2 ^ log2ceil data_width =? data_width then Some (bin_to_onehot (log2ceil data_width) v en)
  else None.

(** oneHotToBin, oneHotToBin.py:36-62: the loop over enumerate(reversed(signals)) building a
    chain of If statements; [acc] is leadingZeroTop *)
Definition onehot_to_bin_loop (n : nat) (rsigs : list bool) : option nat :=
  fst (fold_left (fun (p : option nat * nat) (s : bool) =>
         let '(acc, i) := p in
         let c := n - i - 1 in
         (Some (match acc with None => c | Some a => if s then c else a end), i + 1))
       rsigs (None, 0)).
(** [None] for an empty list of signals *)
Definition onehot_to_bin (sigs : list bool) : option nat := onehot_to_bin_loop (length sigs) (rev sigs).

(** OneHotToBin.hwImpl, oneHotToBin.py:38-40: bin.data, bin.vld *)
Definition mod_onehot_to_bin (sigs : list bool) : option nat * bool := (onehot_to_bin sigs, existsb (fun b => b) sigs).
