(** What an array of LRU records has to do: every access updates the record of its index, a victim is chosen from the record. *)
From Verif Require Import Base LruaModel.

Section Spec.
  Variable n : nat.
  Variable mark : N -> N -> N.
  Variable lru : N -> nat.

  (** port [k] accesses index [a] in the cycle (0 is the request for a victim, k+1 the incr port k); the ports are blocked by set *)
  Definition touch (c : l_in) (k a : nat) : bool :=
    negb (ln_set c) &&
    match k with
    | O => ln_req c && (ln_req_addr c =? a)
    | S j => (j <? n) && li_vld (ln_incr c j) && (li_index (ln_incr c j) =? a)
    end.
  (** ways used by the accesses to index [a] in the cycle; the victim chosen from the record [v] is also used *)
  Definition used_ways (c : l_in) (a : nat) (v : N) : N :=
    fold_right N.lor 0%N
      (map (fun k => if touch c k a then onehot (match k with O => lru v | S j => li_way (ln_incr c j) end) else 0%N) (seq 0 (S n))).
  (** the record of index [a] after the accesses of one cycle, they are merged *)
  Definition record_after (c : l_in) (a : nat) (v : N) : N :=
    if ln_set c then (if ln_set_addr c =? a then ln_set_data c else v)
    else if existsb (fun k => touch c k a) (seq 0 (S n)) then mark v (used_ways c a v) else v.
  (** the record after a history, records are zero after the reset *)
  Definition record (h : list l_in) (a : nat) : N := fold_left (fun v c => record_after c a v) h 0%N.

  (** any use of an index *)
  Definition uses (c : l_in) (a : nat) : Prop :=
    (ln_set c = true /\ ln_set_addr c = a) \/ exists k, k <= n /\ touch c k a = true.
  (** an index which was used is not used in the next two cycles *)
  Definition spaced (is : list l_in) : Prop :=
    forall i j c c' a, nth_error is i = Some c -> nth_error is j = Some c' -> i < j <= i + 2 -> uses c a -> uses c' a -> False.
  (** after an access its port holds address and way for one more cycle in which set is not used *)
  Definition held (is : list l_in) : Prop :=
    forall i c c' k a, nth_error is i = Some c -> nth_error is (S i) = Some c' -> k <= n -> touch c k a = true ->
      ln_set c' = false /\
      match k with
      | O => ln_req_addr c' = a
      | S j => li_index (ln_incr c' j) = a /\ li_way (ln_incr c' j) = li_way (ln_incr c j)
      end.
  (** victims are taken at once *)
  Definition taken_at_once (is : list l_in) : Prop := forall c, In c is -> ln_rd c = true.

  (** requests for a victim which were accepted, and answers which were taken *)
  Definition requests (t : list (l_in * l_out)) : nat :=
    length (filter (fun io => ln_req (fst io) && lo_req_rd (snd io)) t).
  Definition answers (t : list (l_in * l_out)) : nat :=
    length (filter (fun io => lo_vld (snd io) && ln_rd (fst io)) t).
End Spec.

(** The documented tree for four ways (pseudo_lru.py:28-48): bit 0 is the root, the way to be replaced is found by the bits,
    each used way turns the bits on its path away from itself. *)
Definition doc_lru (v : N) : nat :=
  if N.testbit v 0 then (if N.testbit v 2 then 3 else 2) else (if N.testbit v 1 then 1 else 0).
Definition doc_use (v : N) (way : nat) : N :=
  match way with
  | 0 => N.lor v 3 | 1 => N.lor (N.clearbit v 1) 1 | 2 => N.lor (N.clearbit v 0) 4 | _ => N.clearbit (N.clearbit v 0) 2
  end.
Definition doc_mark (v mask : N) : N :=
  fold_left (fun x w => if N.testbit mask (N.of_nat w) then doc_use x w else x) [0; 1; 2; 3] v.
