(** What a user of the simulation memory relies on: a memory of bits. *)
From Verif Require Import Base SimRamModel AsrModel.

(** bit [b] of a number *)
Definition nbit (x : N) (b : nat) : bool := N.testbit x (N.of_nat b).
(** content of a cell: a bit is known (Some) or not (None) *)
Definition cell_bit (c : cell) (b : nat) : option bool :=
  match c with
  | CNone => None
  | CInt v => Some (nbit v b)
  | CVal v m => if nbit m b then Some (nbit v b) else None
  end.
Section Spec.
  Variable cs : nat.
  (** the memory as bits: bit [b] of word [k]; nothing is known about a word which is not there *)
  Definition mem_bit (d : list (nat * cell)) (k b : nat) : option bool :=
    match dict_get d k with None => None | Some c => cell_bit c b end.
  (** content of a word of the bus *)
  Definition data_bit (v : hval) (b : nat) : option bool := cell_bit (CVal (hv_val v) (hv_vld v)) b.

  (** bit [b] of word [k] after a burst with words [ws] written from word [base]: only bytes with strobe are changed *)
  Definition put (m : nat -> nat -> option bool) (base : nat) (ws : list wword) (k b : nat) : option bool :=
    match (if k <? base then None else nth_error ws (k - base)) with
    | Some w => if nbit (ww_strb w) (b / 8) then data_bit (ww_data w) b else m k b
    | None => m k b
    end.
  (** the words of a burst have exactly one last, at the end *)
  Definition framed (ws : list wword) : Prop :=
    forall i w, nth_error ws i = Some w -> (ww_last w = true <-> S i = length ws).
  (** strobe of a bus of cs bytes: all or nothing *)
  Definition all_or_nothing (strb : N) : Prop := strb = 0%N \/ strb = N.ones (N.of_nat cs).
  (** the cases of a partial strobe in which the memory is right: the word was not stored as a python int and the bits known
      after the write are not exactly the lowest cs bits *)
  Definition partial_ok (d : list (nat * cell)) (k : nat) (w : wword) : Prop :=
    (forall v, dict_get d k <> Some (CInt v)) /\
    ~ (forall b, b < 8 * cs ->
         (if nbit (ww_strb w) (b / 8) then nbit (hv_vld (ww_data w)) b
          else match mem_bit d k b with Some _ => true | None => false end) = (b <? cs)).
  Definition strobes_ok (d : list (nat * cell)) (base : nat) (ws : list wword) : Prop :=
    forall i w, nth_error ws i = Some w -> all_or_nothing (ww_strb w) \/ partial_ok d (base + i) w.

  (** the answer to a read of [n] words from [base] *)
  Definition answers (d : list (nat * cell)) (r : req) (ws : list rword) : Prop :=
    length ws = rq_size r /\
    forall i w, nth_error ws i = Some w ->
      rw_id w = rq_id r /\ (rw_last w = true <-> S i = rq_size r) /\
      forall b, b < 8 * cs -> cell_bit (rw_data w) b = mem_bit d (rq_addr r / cs + i) b.

  (** what the writes [rs] with the stream of words [ws] leave in the memory and in the stream: one after another, whole *)
  Fixpoint writes (d : list (nat * cell)) (ws : list wword) (rs : list req) : option (list (nat * cell) * list wword) :=
    match rs with
    | [] => Some (d, ws)
    | r :: rs' => match do_write cs d ws r with None => None | Some (d', ws') => writes d' ws' rs' end
    end.
  (** the agents deliver at most one request of a channel per check *)
  Definition single (is : list arr) : Prop := Forall (fun i => length (in_ar i) <= 1 /\ length (in_aw i) <= 1) is.
  Definition all_ar (is : list arr) : list req := flat_map in_ar is.
  Definition all_aw (is : list arr) : list req := flat_map in_aw is.
  Definition all_w (is : list arr) : list wword := flat_map in_w is.
  Definition quiet : arr := mk_arr [] [] [].

End Spec.
