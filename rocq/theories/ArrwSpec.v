(** Vocabulary of the properties of ArrayBuff_writer. *)
From Verif Require Import Base ArrwModel.

Section Spec.
  Context {A : Type}.
  Notation cycle := (aw_in A * aw_out A)%type.
  (** items accepted, requests (address, number of words - 1) accepted, words (with the mark of the last) accepted by the datapump *)
  Definition items (t : list cycle) : list A := flat_map (fun c => if i_iv (fst c) && o_ird (snd c) then [i_item (fst c)] else []) t.
  Definition reqs (t : list cycle) : list (nat * nat) := flat_map (fun c => if o_reqv (snd c) && i_reqrd (fst c) then [(o_addr (snd c), o_len (snd c))] else []) t.
  Definition words (t : list cycle) : list (A * bool) := flat_map (fun c => if o_wv (snd c) && i_wrdy (fst c) then [(o_wd (snd c), o_wlast (snd c))] else []) t.

  (** What the datapump writes into the memory: each request takes its words, one word of [B] bytes after another; [None] if a word has no request or a mark of the last word is wrong. [cur] is the rest of the request in progress. *)
  Fixpoint written (B AW : nat) (cur : option (nat * nat)) (rs : list (nat * nat)) (ws : list (A * bool)) : option (list (nat * A)) :=
    match ws with
    | [] => Some []
    | (d, l) :: ws' =>
        match (match cur with Some c => Some (c, rs) | None => match rs with c :: rs' => Some (c, rs') | [] => None end end) with
        | None => None
        | Some ((a, n), rs') =>
            if Bool.eqb l (n =? 0) then
              match written B AW (if n =? 0 then None else Some ((a + B) mod 2 ^ AW, n - 1)) rs' ws' with
              | Some r => Some ((a, d) :: r)
              | None => None
              end
            else None
        end
    end.
  (** address of the cell for item number [k] in the circular array *)
  Definition cell (B AW ITEMS base k : nat) : nat := (base + (k mod ITEMS) * B) mod 2 ^ AW.

  (** words which were sent before the last acknowledge of this component *)
  Fixpoint acked (n u : nat) (t : list cycle) : nat :=
    match t with
    | [] => u
    | c :: t' =>
        acked (n + length (words [c])) (if i_ackv (fst c) && i_ackid (fst c) && o_ackrd (snd c) then n else u) t'
    end.
  (** the base address is not changed *)
  Definition keeps_base (is : list (aw_in A)) : Prop := Forall (fun i => i_bv i = false) is.
  (** the datapump takes what is offered and acknowledges when the component waits for it *)
  Definition serves (t : list cycle) : Prop :=
    Forall (fun c => (o_reqv (snd c) = true -> i_reqrd (fst c) = true) /\ (o_wv (snd c) = true -> i_wrdy (fst c) = true) /\ (o_ackrd (snd c) = true -> i_ackv (fst c) = true /\ i_ackid (fst c) = true)) t.
End Spec.
