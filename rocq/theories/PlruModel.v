(** Model of hwtLib/amba/axi_comp/cache/pseudo_lru.py [PseudoLru] (the expressions which it builds over the bits of the register,
    bit 0 first). The recursion over the tree uses fuel; w is the width of the register. *)
From Verif Require Import Base.

(** pseudo_lru.py:62-64 [lru_reg_width], pseudo_lru.py:66-68 [lru_reg_items] *)
Definition lru_reg_width (items : nat) : nat := 2 ^ log2ceil items - 1.
Definition lru_reg_items (w : nat) : nat := 2 ^ log2ceil (w + 1).
(** pseudo_lru.py:71, the assertion of the constructor; hwt.math.isPow2 *)
Definition lru_ok (w : nat) : bool := (negb (w - 1 =? 0) && (2 ^ Nat.log2 (w - 1) =? w - 1)) || (w =? 1).

(** pseudo_lru.py:74-88 [node_selected_mask]: the indexes of the yielded elements of lru_tree *)
Fixpoint selected (fuel w node : nat) : list nat :=
  if w <=? 2 * node + 1 then [node]
  else match fuel with
       | O => []
       | S f => selected f w (2 * node + 1) ++ selected f w (2 * node + 2)
       end.

(** pseudo_lru.py:10-11 [parity] *)
Definition parity (l : list bool) : bool := fold_left xorb l false.

(** pseudo_lru.py:90-101 [mark_use_many]; lru_tree = r ++ mask *)
Definition mark_use_many (r mask : list bool) : list bool :=
  let w := length r in
  map (fun i => xorb (nth i r false) (parity (map (fun j => nth j (r ++ mask) false) (selected w w i)))) (seq 0 w).

(** pseudo_lru.py:103-121 [_build_node_paths], the dictionary as a list of pairs *)
Fixpoint node_paths (fuel : nat) (r : list bool) (i : nat) (prefix : list bool) : list (nat * list bool) :=
  let b := nth i r false in
  if length r <=? 2 * i + 1 then [(i, prefix ++ [negb b])]
  else match fuel with
       | O => []
       | S f => (i, prefix ++ [b]) :: node_paths f r (2 * i + 1) (prefix ++ [negb b]) ++ node_paths f r (2 * i + 2) (prefix ++ [b])
       end.
Definition path_of (d : list (nat * list bool)) (i : nat) : option (list bool) :=
  match find (fun p => fst p =? i) d with Some p => Some (snd p) | None => None end.

(** pseudo_lru.py:123-149 [get_lru]: the bits of the index, the most significant first; None is the KeyError *)
Fixpoint or_paths (d : list (nat * list bool)) (nodes : list nat) : option bool :=
  match nodes with
  | [] => Some false
  | i :: ns => match path_of d i, or_paths d ns with Some p, Some b => Some (forallb (fun x => x) p || b) | _, _ => None end
  end.
Fixpoint lru_bits (d : list (nat * list bool)) (level cnt : nat) : option (list bool) :=
  match cnt with
  | O => Some []
  | S c => match or_paths d (seq (2 ^ level - 1) (2 ^ level)), lru_bits d (level + 1) c with
           | Some b, Some bs => Some (b :: bs) | _, _ => None end
  end.
Definition get_lru (r : list bool) : option (list bool) :=
  lru_bits (node_paths (length r) r 0 []) 0 (log2ceil (lru_reg_items (length r))).
