(** Transactional queue: what the writer committed, what it has in flight, what the reader got. *)
From Verif Require Import Base FifoDropModel.

Section S.
  Context {A : Type}.
  Notation cyc := (fd_in A * fd_out A)%type.

  Definition fd_wacc (c : cyc) : bool := fi_en (fst c) && negb (fo_wwait (snd c)).
  Definition fd_racc (c : cyc) : bool := fi_ren (fst c) && negb (fo_rwait (snd c)).

  (** (committed words, words in flight) after one more cycle *)
  Definition tx_step (p : list A * list A) (c : cyc) : list A * list A :=
    let '(done, flight) := p in
    if fi_discard (fst c) then (done, [])
    else if fd_wacc c then
      (if fi_commit (fst c) then (done ++ flight ++ [fi_data (fst c)], [])
       else (done, flight ++ [fi_data (fst c)]))
    else (done, flight).
  Definition committed (t : list cyc) : list A := fst (fold_left tx_step t ([], [])).
  Definition in_flight (t : list cyc) : list A := snd (fold_left tx_step t ([], [])).

  Fixpoint fd_got (t : list cyc) : list A :=
    match t with
    | [] => []
    | c :: t' => if fd_racc c then fo_rdata (snd c) :: fd_got t' else fd_got t'
    end.

  (** number of committed words which were not read yet *)
  Definition readable (t : list cyc) : nat := length (committed t) - length (fd_got t).

  Definition fd_law (cap : nat) (t : list cyc) : Prop :=
    (exists inside, committed t = fd_got t ++ inside /\ length inside + length (in_flight t) <= cap) /\
    (forall t1 c t2, t = t1 ++ c :: t2 ->
       (fo_wwait (snd c) = true <-> readable t1 + length (in_flight t1) = cap) /\
       (fo_rwait (snd c) = true <-> readable t1 = 0) /\
       fo_size (snd c) = readable t1 + length (in_flight t1)).

  (** Environment of one cycle: nobody asserts en against wait, commit and discard are exclusive
      (documented on FifoWriterDropable). *)
  Definition fd_polite (c : cyc) : Prop :=
    (fi_en (fst c) = true -> fo_wwait (snd c) = false) /\
    (fi_ren (fst c) = true -> fo_rwait (snd c) = false) /\
    (fi_commit (fst c) = true -> fi_discard (fst c) = false).
  (** Nobody reads in a cycle with discard. *)
  Definition no_read_on_discard (c : cyc) : Prop := fi_discard (fst c) = true -> fi_ren (fst c) = false.
End S.
