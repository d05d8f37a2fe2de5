(** Vocabulary of the properties of CLinkedListReader. *)
From Verif Require Import Base LlrModel.

(** The linked list: [mem] maps byte addresses to words of [B] bytes; a node at address [a] has ITEMS words with items and then one word with the address of the next node. *)
Section List_.
  Variables (mem : nat -> nat) (B AW ITEMS : nat).
  (** the pointer in a word, aligned to words *)
  Definition pointer (d : nat) : nat := (d mod 2 ^ AW) / B * B.
  Fixpoint node (base n : nat) : nat := match n with 0 => base | S n => pointer (mem ((node base n + ITEMS * B) mod 2 ^ AW)) end.
  (** item number [k] of the list *)
  Definition item (base k : nat) : nat := mem ((node base (k / ITEMS) + (k mod ITEMS) * B) mod 2 ^ AW).
  (** words which answer to the request *)
  Definition answer (id addr len : nat) : list (nat * nat * bool) := map (fun j => (id, mem ((addr + j * B) mod 2 ^ AW), j =? len)) (seq 0 (S len)).
End List_.

Section Spec.
  Notation cycle := (l_in * l_out)%type.
  (** words taken from dataOut; words taken from the datapump; requests *)
  Definition received (t : list cycle) : list nat := flat_map (fun c => if d_v (snd c) && d_rd (fst c) then [d_d (snd c)] else []) t.
  Definition requests (t : list cycle) : list (nat * nat * nat) := flat_map (fun c => if q_v (snd c) && q_rd (fst c) then [(q_id (snd c), q_addr (snd c), q_len (snd c))] else []) t.
  Definition took (c : cycle) : bool := r_v (fst c) && r_r (snd c).

  (** The datapump is honest: it offers only the words which answer to the requests, in the order; [due] are the words not yet taken. *)
  Fixpoint honest (mem : nat -> nat) (B AW : nat) (due : list (nat * nat * bool)) (t : list cycle) : Prop :=
    match t with
    | [] => True
    | c :: t' =>
        (r_v (fst c) = true -> exists due', due = (r_id (fst c), r_d (fst c), r_l (fst c)) :: due') /\
        honest mem B AW ((if took c then tl due else due) ++ flat_map (fun r => let '(id, a, n) := r in answer mem B AW id a n) (requests [c])) t'
    end.
  (** it also serves: takes requests and offers words which are due; the consumer takes data *)
  Fixpoint serves (mem : nat -> nat) (B AW : nat) (due : list (nat * nat * bool)) (t : list cycle) : Prop :=
    match t with
    | [] => True
    | c :: t' =>
        (q_rd (fst c) = true /\ d_rd (fst c) = true /\ (due <> [] -> r_v (fst c) = true)) /\
        serves mem B AW ((if took c then tl due else due) ++ flat_map (fun r => let '(id, a, n) := r in answer mem B AW id a n) (requests [c])) t'
    end.
  (** the words due after [t] *)
  Fixpoint due_after (mem : nat -> nat) (B AW : nat) (due : list (nat * nat * bool)) (t : list cycle) : list (nat * nat * bool) :=
    match t with
    | [] => due
    | c :: t' => due_after mem B AW ((if took c then tl due else due) ++ flat_map (fun r => let '(id, a, n) := r in answer mem B AW id a n) (requests [c])) t'
    end.

  (** Items announced by writes of wrPtr: the pointer of PW bits moves forward from the number [w] to the next number with the written value. *)
  Definition forward (PW w v : nat) : nat := w + (v mod 2 ^ PW + 2 ^ PW - w mod 2 ^ PW) mod 2 ^ PW.
  Definition next_ann (PW w : nat) (i : l_in) : nat := match s_wr i with Some v => forward PW w v | None => w end.
  Fixpoint announced (PW w : nat) (t : list cycle) : nat := match t with [] => w | c :: t' => announced PW (next_ann PW w (fst c)) t' end.
  (** a word with an item was taken: every word except of the last one of a request with ID_LAST *)
  Definition took_item (ID_LAST : nat) (c : cycle) : bool := took c && negb (r_l (fst c) && (r_id (fst c) =? ID_LAST)).
  (** the producer announces less than 2^PW items ahead of the loaded ones: [w] announced, [r] loaded *)
  Fixpoint fits (ID_LAST PW w r : nat) (t : list cycle) : Prop :=
    match t with
    | [] => True
    | c :: t' => next_ann PW w (fst c) < r + 2 ^ PW /\ fits ID_LAST PW (next_ann PW w (fst c)) (r + if took_item ID_LAST c then 1 else 0) t'
    end.
  (** number of items asked for by requests *)
  Definition asked (ID_LAST : nat) (t : list cycle) : nat := list_sum (map (fun r => let '(id, _, n) := r in if id =? ID_LAST then n else S n) (requests t)).
  (** the registers for the base address and rdPtr are not written *)
  Definition keeps (is : list l_in) : Prop := Forall (fun i => s_base i = None /\ s_rd i = None) is.
End Spec.
