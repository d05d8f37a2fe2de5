(** Specification of the cache directory *)
From Verif Require Import Base RamModel TagModel.

Section Spec.
  Context (c : tcfg).
  (** the memory holds at line [i], way [w] a valid record of tag [t] before the start: bits of the tag from bit 0, then the valid bit *)
  Definition stored (m : memory (nat -> bool)) (i w t : nat) : Prop :=
    let bit j := m i (w * REC_B c + j / 8) (j mod 8) in
    bit (TAG_W c) = true /\ forall j, j < TAG_W c -> bit j = Nat.testbit t j.
  (** the update addresses way [w] of line [i] *)
  Definition touches (u : upd_in) (i w : nat) : Prop := u_vld u = true /\ index_of c (u_addr u) = i /\ nth w (u_way u) false = true.
  (** after updates [us] way [w] of line [i] holds tag [t]: the last update of this way decides *)
  Definition holds (m : memory (nat -> bool)) (us : list upd_in) (i w t : nat) : Prop :=
    (stored m i w t /\ forall u, In u us -> ~ touches u i w) \/
    (exists a u b, us = a ++ u :: b /\ touches u i w /\ u_del u = false /\ tag_of c (u_addr u) = t /\ forall u', In u' b -> ~ touches u' i w).
  (** the address is in the directory, in way [w] *)
  Definition present m us a w : Prop := w < WAY_CNT c /\ holds m us (index_of c a) w (tag_of c a).

  Context {I : Type}.
  (** requests accepted and answers handed over on port [k], as (id, addr) *)
  Definition port_cycle := (lk_in I * lk_out I)%type.
  Definition port_trace (k : nat) (t : list ((upd_in * list (lk_in I)) * list (lk_out I))) : list port_cycle :=
    flat_map (fun x => match nth_error (snd (fst x)) k, nth_error (snd x) k with Some i, Some o => [(i, o)] | _, _ => [] end) t.
  Definition asked (t : list port_cycle) : list (I * nat) :=
    flat_map (fun x => if l_vld (fst x) && o_rd (snd x) then [(l_id (fst x), l_addr (fst x))] else []) t.
  Definition answered (t : list port_cycle) : list (I * nat) :=
    flat_map (fun x => if o_vld (snd x) && l_rrd (fst x) then [(o_id (snd x), o_addr (snd x))] else []) t.
End Spec.
