(** Arrays and page tables in a memory of bytes. *)
From Verif Require Import Base MmuModel.
From Coq Require Import NArith.
Open Scope N_scope.

(** [n] bytes of the memory from the address [a] as a number, the lowest byte first *)
Fixpoint le (mem : N -> N) (a : N) (n : nat) : N := match n with O => 0 | S n' => mem a + 256 * le mem (a + 1) n' end.
(** item [i] of the array at [base] with items of [b] bytes *)
Definition item (mem : N -> N) (base : N) (b : nat) (i : N) : N := le mem (base + i * N.of_nat b) b.

(** the memory behind the datapump answers the requests in their order, in a later cycle; [pend]: addresses without an answer.
    A cycle is: the accepted address, the offered data, is it taken *)
Fixpoint served (mem : N -> N) (bytes : nat) (pend : list N) (t : list (option N * option N * bool)) : Prop :=
  match t with
  | [] => True
  | (q, r, tk) :: t' =>
      match r with Some d => exists a p, pend = a :: p /\ d = le mem a bytes | None => True end /\
      served mem bytes ((match r with Some _ => if tk then tl pend else pend | None => pend end) ++ match q with Some a => [a] | None => [] end) t'
  end.

(** ArrayItemGetter *)
Notation gc := (ag_in * ag_out)%type.
Definition g_bus (x : gc) : option N * option N * bool :=
  (if gi_qrd (fst x) then go_req (snd x) else None, if gi_rv (fst x) then Some (gi_r (fst x)) else None, go_rrd (snd x)).
(** the accepted indexes with the base, the items which were handed over *)
Definition g_asked (x : gc) : list (N * N) := if gi_iv (fst x) && go_ird (snd x) then [(gi_base (fst x), gi_idx (fst x))] else [].
Definition g_got (x : gc) : list N := match go_item (snd x) with Some d => if gi_rd (fst x) then [d] else [] | None => [] end.

(** MMU *)
Notation uc := (mm_in * mm_out)%type.
Definition u_bus (x : uc) : option N * option N * bool :=
  (if mi_qrd (fst x) then mo_req (snd x) else None, if mi_rv (fst x) then Some (mi_r (fst x)) else None, mo_rrd (snd x)).
Definition u_taken (x : uc) : bool := mi_vv (fst x) && mo_vrd (snd x).
Definition u_sent (x : uc) : list N := match mo_p (snd x) with Some p => if mi_prd (fst x) then [p] else [] | None => [] end.
(** the accepted virtual addresses, each with its item of the first table at that time; [tbl]: the first table *)
Fixpoint lookups (PO W2 : nat) (tbl : N -> N) (t : list uc) : list (N * N) :=
  match t with
  | [] => []
  | x :: t' => (if u_taken x then [(mi_v (fst x), tbl (mi_v (fst x) / p2 (W2 + PO)))] else []) ++
      lookups PO W2 (if mi_we (fst x) then fun a => if a =? mi_wa (fst x) then mi_wd (fst x) else tbl a else tbl) t'
  end.
(** the first table is not written in a cycle with an accepted address *)
Definition u_quiet (x : uc) : Prop := u_taken x = true -> mi_we (fst x) = false.
(** the item of the second table, the physical address, is the address mapped (bit 0 of both items is 0) *)
Definition second (mem : N -> N) (AW PO W2 : nat) (q : N * N) : N := item mem (snd q) (AW / 8) ((fst q / p2 PO) mod p2 W2).
Definition physical (mem : N -> N) (AW PO W2 : nat) (q : N * N) : N := second mem AW PO W2 q / p2 PO * p2 PO + fst q mod p2 PO.
Definition mapped (mem : N -> N) (AW PO W2 : nat) (q : N * N) : bool := negb (N.odd (snd q)) && negb (N.odd (second mem AW PO W2 q)).

(** the addresses without an answer after the cycles; each cycle with such an address has an answer *)
Fixpoint pending (pend : list N) (t : list (option N * option N * bool)) : list N :=
  match t with
  | [] => pend
  | (q, r, tk) :: t' => pending ((match r with Some _ => if tk then tl pend else pend | None => pend end) ++ match q with Some a => [a] | None => [] end) t'
  end.
Fixpoint prompt (pend : list N) (t : list (option N * option N * bool)) : Prop :=
  match t with
  | [] => True
  | (q, r, tk) :: t' => (pend <> [] -> r <> None) /\
      prompt ((match r with Some _ => if tk then tl pend else pend | None => pend end) ++ match q with Some a => [a] | None => [] end) t'
  end.
