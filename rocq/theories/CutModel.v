(** Model of hwtLib/amba/axi_comp/cache/utils.py [expand_byte_mask_to_bit_mask, apply_write_with_mask, extend_to_width_multiple_of_8, CamWithReadPort].
    Simplified: a value of a signal is the list of its bits, the lowest first; a type with a negative width (hwt) is an exception, [None];
    of CamWithReadPort only the memory with its write and read port is modelled, not the lookup. *)
From Verif Require Import Base.

Definition bits := list bool.
(** Concat (hwt): the first argument is the highest part *)
Definition Concat (l : list bits) : bits := List.concat (rev l).
(** :12-21 *)
Definition expand_byte_mask_to_bit_mask (m : bits) : bits := Concat (rev (map (fun b => Concat (map (fun _ => [b]) (seq 0 8))) m)).
(** bitwise operators *)
Definition band (a b : bits) : bits := map (fun p => fst p && snd p) (combine a b).
Definition bor (a b : bits) : bits := map (fun p => fst p || snd p) (combine a b).
Definition bnot (a : bits) : bits := map negb a.
(** apply_set_and_clear (pyMathBitPrecise, external): set has priority *)
Definition set_and_clear (val set clear : bits) : bits := bor (band val (bnot clear)) set.
(** :24-26 *)
Definition apply_write_with_mask (current new mask : bits) : bits :=
  let m := expand_byte_mask_to_bit_mask mask in set_and_clear current (band new m) m.
(** :29-38; ceil((w // 8) / 8) * 8 *)
Definition closest (w : nat) : nat := (w / 8 + 7) / 8 * 8.
Definition extend_to_width_multiple_of_8 (sig : bits) : option bits :=
  let w := length sig in
  if closest w =? w then Some sig else if closest w <? w then None else Some (Concat [repeat false (closest w - w); sig]).

(** CamWithReadPort: width of addresses of the ports, :59 and hwtLib/mem/cam.py:56 *)
Definition cam_aw (items : nat) : nat := log2ceil (items - 1).
(** the memory of ITEMS zeros, cam.py:94-97 *)
Definition cam_init (items : nat) : list N := repeat 0%N items.
(** one clock: write (cam.py:67-71; an address out of range has no effect) and the address of the read port; the read is from the memory before the write, :65.
    The pins have [cam_aw] bits. A read out of range is unknown, [None] *)
Definition cam_step (items : nat) (mem : list N) (i : option (nat * N) * nat) : list N * option N :=
  let pin a := wrap (cam_aw items) a in
  (match fst i with None => mem | Some (a, d) => if pin a <? length mem then firstn (pin a) mem ++ d :: skipn (S (pin a)) mem else mem end, nth_error mem (pin (snd i))).
