(** FifoArray as a set of lists of nodes.  A node is its address and its data, the head of a list comes first. *)
From Verif Require Import Base FifoArrayModel.

Notation node A := (nat * A)%type (only parsing).
Definition addrs {A} (ls : list (list (node A))) : list nat := map fst (concat ls).

(** popping the list with the head at [a] gives its data, whether it was the last node and the address of the next node *)
Inductive popped {A} (ls : list (list (node A))) (a : nat) : A -> bool -> option nat -> list (list (node A)) -> Prop :=
| pop_single l1 d l2 : ls = l1 ++ [(a, d)] :: l2 -> popped ls a d true None (l1 ++ l2)
| pop_more l1 d a' d' rest l2 : ls = l1 ++ ((a, d) :: (a', d') :: rest) :: l2 ->
    popped ls a d false (Some a') (l1 ++ ((a', d') :: rest) :: l2).

(** inserting a node stored at [ret]: append = 0 starts a new list, append = 1 continues the list whose last node is at [addr].
    [strict]: addr is really ignored with append = 0; otherwise it must not be the address of a node with a successor. *)
Inductive inserted {A} (strict : bool) (ls : list (list (node A))) (addr ret : nat) (d : A) : bool -> list (list (node A)) -> Prop :=
| ins_new : (strict = false -> forall l1 pre p x rest l2, ls <> l1 ++ (pre ++ (addr, p) :: x :: rest) :: l2) ->
            inserted strict ls addr ret d false ([(ret, d)] :: ls)
| ins_app l1 pre p l2 : ls = l1 ++ (pre ++ [(addr, p)]) :: l2 ->
                        inserted strict ls addr ret d true (l1 ++ (pre ++ [(addr, p); (ret, d)]) :: l2).

(** The law for a trace starting with the lists [ls]: it says nothing after a pop whose address is not the head of a list and
    after an append whose address is not the end of a list. *)
Fixpoint array_law {A} (strict : bool) (cap : nat) (ls : list (list (node A))) (t : list (fa_in A * fa_out A)) : Prop :=
  match t with
  | [] => True
  | (i, o) :: t' =>
      (i_rd o = true <-> length (addrs ls) < cap) /\
      (p_vld o = true <-> 0 < length (addrs ls)) /\
      (i_rd o = true -> i_ret o < cap /\ ~ In (i_ret o) (addrs ls)) /\
      (forall d l n ls1, popped ls (p_addr i) d l n ls1 -> p_data o = d /\ p_last o = l /\ (forall a, n = Some a -> p_next o = a)) /\
      (forall ls1 ls2,
         (if p_vld o && p_rd i then exists d l n, popped ls (p_addr i) d l n ls1 else ls1 = ls) ->
         (if i_vld i && i_rd o then inserted strict ls1 (i_addr i) (i_ret o) (i_data i) (i_append i) ls2 else ls2 = ls1) ->
         array_law strict cap ls2 t')
  end.
