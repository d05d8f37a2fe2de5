From Verif Require Import Base Mi32IcModel.

(** the address belongs to the slave *)
Definition in_slave (s : nat * nat) (a : nat) : Prop := fst s <= a < fst s + snd s.
(** sizes are powers of two of at least two, offsets are aligned, regions are disjoint (C35) *)
Definition slaves_ok (l : list (nat * nat)) : Prop :=
  (forall s, In s l -> (exists k, 1 <= k /\ snd s = 2 ^ k) /\ fst s mod snd s = 0) /\
  (forall i j s q a, nth_error l i = Some s -> nth_error l j = Some q -> in_slave s a -> in_slave q a -> i = j).

Section S.
  Context {D : Type}.
  Notation cyc := (ic_in D * ic_out D)%type.
  (** slave [j] takes a read, a write *)
  Definition s_reads (c : cyc) (j : nat) : Prop := io_rd (snd c) j = true /\ ii_ardy (fst c) j = true.
  Definition s_writes (c : cyc) (j : nat) : Prop := io_wr (snd c) j = true /\ ii_ardy (fst c) j = true.
  (** An access is taken from the master in the cycle in which the slave of its address takes it, and only that slave sees it. *)
  Definition routed (l : list (nat * nat)) (c : cyc) : Prop :=
    (forall j, io_rd (snd c) j = true -> ii_rd (fst c) = true /\ exists s, nth_error l j = Some s /\ in_slave s (ii_addr (fst c))) /\
    (forall j, io_wr (snd c) j = true -> ii_wr (fst c) = true /\ exists s, nth_error l j = Some s /\ in_slave s (ii_addr (fst c))) /\
    (ii_rd (fst c) && io_ardy (snd c) = true <-> exists j, s_reads c j) /\
    (ii_wr (fst c) && io_ardy (snd c) = true <-> exists j, s_writes c j).
  (** Each slave gives read data exactly one cycle after it takes a read; [p] = the slave which took one in the previous cycle. *)
  Fixpoint lat1 (n : nat) (p : option nat) (t : list cyc) : Prop :=
    match t with
    | [] => True
    | c :: t' => (forall j, j < n -> (fst (ii_d (fst c) j) = true <-> p = Some j)) /\
                 forall p', (match p' with Some j => s_reads c j | None => forall j, ~ s_reads c j end) -> lat1 n p' t'
    end.
  (** The master gets the data in the cycle after the slave gave it, and nothing else; [p] as above, [q] = the data given by a slave in
      the previous cycle. *)
  Fixpoint data_law (p : option nat) (q : option D) (t : list cyc) : Prop :=
    match t with
    | [] => True
    | c :: t' =>
        match q with Some d => io_drdy (snd c) = true /\ io_drd (snd c) = d | None => io_drdy (snd c) = false end /\
        forall p', (match p' with Some j => s_reads c j | None => forall j, ~ s_reads c j end) ->
          data_law p' (match p with Some j => Some (snd (ii_d (fst c) j)) | None => None end) t'
    end.
  (** reads taken from the master and words given to it *)
  Definition n_reads (t : list cyc) : nat := length (filter (fun c => ii_rd (fst c) && io_ardy (snd c)) t).
  Definition n_words (t : list cyc) : nat := length (filter (fun c => io_drdy (snd c)) t).
End S.
