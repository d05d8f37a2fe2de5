From Verif Require Import Base FifoOooModel.

(** some item of the list is in slot [j]: item number k is in slot k mod n *)
Definition in_slot (n : nat) (l : list nat) (j : nat) : bool := existsb (fun k => k mod n =? j) l.

(** The items are numbered by the order of the writes. [w] items were written, the reads of the first [r] were executed and
    those of the list [busy] wait for the confirmation; [wp] is the [w] of one cycle ago.
    - the items which occupy a slot are those being read and those not read yet; no two of them are in the same slot;
    - a write is accepted exactly if no such item is in the slot of the new one;
    - the reads are offered in the order of the writes, with the slot of the item, as long as there is an item to read;
    - item_valid marks the occupied slots;
    - item_write_lock marks the slots of the items being read, and the slot of the next item to read unless it was written in
      the last cycle.
    The environment may confirm, in any order, only items being read; the law ends when it does not obey. *)
Fixpoint ooo_law (n w r wp : nat) (busy : list nat) (t : list (oo_in * oo_out)) : Prop :=
  match t with
  | [] => True
  | (i, o) :: t' =>
      let live := busy ++ seq r (w - r) in
      NoDup (map (fun k => k mod n) live) /\
      ooo_wrd o = negb (in_slot n live (w mod n)) /\
      ooo_rvld o = (r <? w) /\ ooo_idx o = r mod n /\
      (forall j, j < n -> ooo_valid o j = in_slot n live j) /\
      (forall j, j < n -> ooo_lock o j = in_slot n busy j || ((r <? wp) && (r mod n =? j))) /\
      let write := ooi_wvld i && ooo_wrd o in
      let read := ooi_rrd i && ooo_rvld o in
      let busy' := match ooi_conf i with Some d => filter (fun k => negb (k mod n =? d)) busy | None => busy end in
      (match ooi_conf i with Some d => in_slot n busy d = true | None => True end ->
       ooo_law n (if write then w + 1 else w) (if read then r + 1 else r) w (if read then busy' ++ [r] else busy') t')
  end.
