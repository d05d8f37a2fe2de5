(** A hash table without collision handling: each hash has one item (key, data, valid). *)
From Verif Require Import Base HashModel.
From Coq Require Import NArith.

Section Hash.
  Variables (AW : nat) (lh : bool).
  Variable hash : N -> N.
  Notation cyc := (ht_in * ht_out)%type.
  Definition item := (N * N * bool)%type.
  Definition h_looked (x : cyc) : bool := hi_lv (fst x) && ho_lrd (snd x).
  Definition h_inserted (x : cyc) : bool := hi_iv (fst x) && ho_ird (snd x).
  Definition slot (k : N) : N := (hash k mod 2 ^ N.of_nat AW)%N.
  Definition h_answer (m : N -> item) (k : N) : ht_res :=
    let '(k', d, v) := m (slot k) in mk_htr (if lh then Some (slot k) else None) k' d v (v && (k =? k')%N).
  Definition h_insert (i : ht_in) (m : N -> item) (h : N) : item := if (h =? hi_ih i)%N then (hi_ik i, hi_id i, hi_ii i) else m h.
  (** the results which the accepted lookups should get *)
  Fixpoint h_answers (m : N -> item) (t : list cyc) : list ht_res :=
    match t with
    | [] => []
    | x :: t' => (if h_looked x then [h_answer m (hi_key (fst x))] else []) ++ h_answers (if h_inserted x then h_insert (fst x) m else m) t'
    end.
  Definition h_results (t : list cyc) : list ht_res := flat_map (fun x => if ho_rv (snd x) && hi_rr (fst x) then [ho_res (snd x)] else []) t.
  (** values fit to their signals *)
  Definition item_fits (KW DW : nat) (x : item) : Prop := let '(k, d, _) := x in (k < 2 ^ N.of_nat KW /\ d < 2 ^ N.of_nat DW)%N.
  Definition h_fits (KW DW : nat) (i : ht_in) : Prop := (hi_key i < 2 ^ N.of_nat KW)%N /\ item_fits KW DW (hi_ik i, hi_id i, hi_ii i).
End Hash.
