(** What a user of RamTransactional relies on; everything is read from the interfaces. *)
From Verif Require Import Base RtrModel.

Section Spec.
  Context {D : Type}.
  Notation cyc := (rtr_in (D := D) * rtr_out (D := D))%type.
  (** transfers in a cycle *)
  Definition read_acc (c : cyc) : bool := ra_vld (fst c) && ra_rdy (snd c).
  Definition write_acc (c : cyc) : bool := wa_vld (fst c) && wa_rdy (snd c).
  Definition wdata_acc (c : cyc) : bool := wd_vld (fst c) && wd_rdy (snd c).
  Definition got_r (t : list cyc) : list (option nat * D * bool) :=
    flat_map (fun c => if rd_rdy (fst c) then match r_data (snd c) with Some x => [x] | None => [] end else []) t.
  Definition got_fa (t : list cyc) : list (option nat * option nat) :=
    flat_map (fun c => if fa_rdy (fst c) then match f_addr (snd c) with Some x => [x] | None => [] end else []) t.
  Definition got_fd (t : list cyc) : list (D * bool) :=
    flat_map (fun c => if fd_rdy (fst c) then match f_data (snd c) with Some x => [x] | None => [] end else []) t.

  (** a memory with items of one word: reads and swaps (a flush and a write) are atomic, in the order in which they were accepted;
      in one cycle the read is before the write *)
  Definition mem_after (m : nat -> D) (c : cyc) : nat -> D :=
    if write_acc c then upd m (wa_addr (fst c)) (wd_put (fst c) (m (wa_addr (fst c)))) else m.
  Fixpoint memory (m : nat -> D) (t : list cyc) : nat -> D :=
    match t with [] => m | c :: t' => memory (mem_after m c) t' end.
  (** the answers to the reads: id, the word, last *)
  Fixpoint reads (m : nat -> D) (t : list cyc) : list (option nat * D * bool) :=
    match t with
    | [] => []
    | c :: t' => (if read_acc c then [(Some (ra_id (fst c)), m (ra_addr (fst c)), true)] else []) ++ reads (mem_after m c) t'
    end.
  (** the items which were flushed: priv, address, the overwritten word *)
  Fixpoint flushes (m : nat -> D) (t : list cyc) : list (nat * nat * D) :=
    match t with
    | [] => []
    | c :: t' => (if write_acc c && wa_flush (fst c) then [(wa_priv (fst c), wa_addr (fst c), m (wa_addr (fst c)))] else []) ++ flushes (mem_after m c) t'
    end.
  (** a flush is accepted in the cycle in which it is offered *)
  Definition flush_at_once (t : list cyc) : Prop :=
    Forall (fun c => wa_vld (fst c) && wa_flush (fst c) = true -> wa_rdy (snd c) = true) t.
  (** the sides which receive data are ready, data comes with a flush *)
  Definition ready_env (is : list (rtr_in (D := D))) : Prop :=
    Forall (fun i => rd_rdy i && fa_rdy i && fd_rdy i = true /\ (wa_vld i && wa_flush i = true -> wd_vld i = true)) is.
  (** no requests, all receivers ready *)
  Definition idle (i : rtr_in (D := D)) : Prop := rd_rdy i && fa_rdy i && fd_rdy i = true /\ ra_vld i = false /\ wa_vld i = false.

  (** items of [n] words *)
  Variable n : nat.
  (** accepted addresses of reads and writes, accepted words of writes *)
  Definition read_addrs (t : list cyc) : list (nat * nat) := flat_map (fun c => if read_acc c then [(ra_id (fst c), ra_addr (fst c))] else []) t.
  Definition write_addrs (t : list cyc) : list nat := flat_map (fun c => if write_acc c then [wa_addr (fst c)] else []) t.
  Definition write_words (t : list cyc) : list (D -> D) := flat_map (fun c => if wdata_acc c then [wd_put (fst c)] else []) t.
  (** all words of an item *)
  Definition item_words (m : nat -> D) (r : nat * nat) : list (option nat * D * bool) :=
    map (fun j => (Some (fst r), m (snd r * n + j), S j =? n)) (seq 0 n).
  (** word [j] of the stream of data is word j mod n of the item at address j / n *)
  Definition put_word (addrs : list nat) (m : nat -> D) (j : nat) (f : D -> D) : nat -> D :=
    match nth_error addrs (j / n) with
    | Some a => upd m (a * n + j mod n) (f (m (a * n + j mod n)))
    | None => m
    end.
  Fixpoint put_words (addrs : list nat) (m : nat -> D) (j : nat) (ws : list (D -> D)) : nat -> D :=
    match ws with [] => m | f :: ws' => put_words addrs (put_word addrs m j f) (S j) ws' end.
  Definition no_flush (is : list (rtr_in (D := D))) : Prop := Forall (fun i => wa_vld i && wa_flush i = false) is.
  Definition no_write (is : list (rtr_in (D := D))) : Prop := Forall (fun i => wa_vld i = false) is.
End Spec.
