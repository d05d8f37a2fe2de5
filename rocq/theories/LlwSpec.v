(** Vocabulary of the properties of CLinkedListWriter. *)
From Verif Require Import Base LlwModel.
From Verif Require Export LlrSpec.

(** address of item [k] of the list: [mem] maps byte addresses to words of [B] bytes; a node has ITEMS words with items and then one word with the address of the next node ([node] of LlrSpec.v) *)
Definition target (mem : nat -> nat) (B AW ITEMS base k : nat) : nat := (node mem B AW ITEMS base (k / ITEMS) + (k mod ITEMS) * B) mod 2 ^ AW.

Section Spec.
  Context {A : Type}.
  Notation cycle := (w_in A * w_out A)%type.
  (** items accepted; requests (address, number of words - 1) accepted; words (with the mark of the last) accepted by the datapump *)
  Definition w_items (t : list cycle) : list A := flat_map (fun c => if e_v (fst c) && f_r (snd c) then [e_d (fst c)] else []) t.
  Definition w_reqs (t : list cycle) : list (nat * nat) := flat_map (fun c => if f_qv (snd c) && e_qrd (fst c) then [(f_qa (snd c), f_ql (snd c))] else []) t.
  Definition w_words (t : list cycle) : list (A * bool) := flat_map (fun c => if f_wv (snd c) && e_wr (fst c) then [(f_wd (snd c), f_wl (snd c))] else []) t.
  (** number of words announced by requests; their addresses *)
  Definition w_asked (t : list cycle) : nat := list_sum (map (fun r => S (snd r)) (w_reqs t)).
  Definition w_places (B AW : nat) (t : list cycle) : list nat := flat_map (fun r => map (fun j => (fst r + j * B) mod 2 ^ AW) (seq 0 (S (snd r)))) (w_reqs t).

  (** Space announced by writes of rdPtr: the pointer of PW bits moves forward to the next number with the written value. *)
  Definition next_room (PW r : nat) (i : w_in A) : nat := match x_rd i with Some v => forward PW r v | None => r end.
  Fixpoint room (PW r : nat) (t : list cycle) : nat := match t with [] => r | c :: t' => room PW (next_room PW r (fst c)) t' end.
  Definition ack_now (i : w_in A) : bool := e_av i && e_aid i.
  (** The datapump acknowledges only a request whose words were all taken: [q] words were asked for, [w] were taken, [n] requests wait for an acknowledge. *)
  Fixpoint acks_ok (q w n : nat) (t : list cycle) : Prop :=
    match t with
    | [] => True
    | c :: t' => (ack_now (fst c) = true -> w = q /\ 0 < n) /\
                 acks_ok (q + w_asked [c]) (w + length (w_words [c])) (n + length (w_reqs [c]) - if ack_now (fst c) && f_ar (snd c) then 1 else 0) t'
    end.
  (** The queue has less than 2^PW items: [r] is the announced space, [k] the number of acknowledged words, [q] of words asked for. *)
  Fixpoint w_fits (PW r k q : nat) (t : list cycle) : Prop :=
    match t with
    | [] => True
    | c :: t' => next_room PW r (fst c) < k + 2 ^ PW /\ w_fits PW (next_room PW r (fst c)) (if ack_now (fst c) then q else k) (q + w_asked [c]) t'
    end.
  (** wrPtr is not written *)
  Definition no_wr (is : list (w_in A)) : Prop := Forall (fun i => x_wr i = None) is.
  (** the base address is not written, words are always taken and an item is always offered *)
  Definition steady (is : list (w_in A)) : Prop := Forall (fun i => x_base i = None /\ e_wr i = true /\ e_v i = true) is.
End Spec.
