(** What the host gets from the endpoints of a USB device. *)
From Verif Require Import Base FifoCopyModel EpbModel.

Section S.
  Context {D : Type}.
  Notation W := (cword D unit).
  Notation cyc := (ep_in D * ep_out D)%type.
  (** words taken from endpoint [e] of the function; words given to the host while it talks with endpoint [e] *)
  Definition ep_talk (e : nat) (i : ep_in D) : bool := ei_ev i && (ei_endp i =? e).
  Definition ep_acc (e : nat) (t : list cyc) : list W :=
    flat_map (fun c => if ei_vld (fst c) e && eo_rd (snd c) e then [ei_word (fst c) e] else []) t.
  Definition ep_sent (e : nat) (t : list cyc) : list (option W) :=
    flat_map (fun c => if ep_talk e (fst c) && (eo_v (snd c) && ei_rd (fst c)) then [eo_word (snd c)] else []) t.
  (** number of whole packets *)
  Definition packets (l : list W) : nat := length (filter cw_last l).
  (** packets whose last word was taken from the function and was not sent yet *)
  Definition waiting (e : nat) (t : list cyc) : nat := packets (ep_acc e t) - packets (firstn (length (ep_sent e t)) (ep_acc e t)).

  (** The words sent are those taken, in order; a word is offered only when its whole packet was taken before. *)
  Definition ep_law (e : nat) (t : list cyc) : Prop :=
    (exists rest, map Some (ep_acc e t) = ep_sent e t ++ rest) /\
    forall t1 c t2, t = t1 ++ c :: t2 -> ep_talk e (fst c) = true -> eo_v (snd c) = true ->
      0 < waiting e t1 /\ eo_word (snd c) = nth_error (ep_acc e t1) (length (ep_sent e t1)).
  (** words before the last whole packet *)
  Fixpoint before_last (start n : nat) (l : list (option W)) : nat :=
    match l with
    | [] => start
    | w :: l' => let n' := S n in
                 if match w with Some x => cw_last x | None => false end then (if existsb (fun y => match y with Some x => cw_last x | None => false end) l'
                                                                             then before_last n' n' l' else start)
                 else before_last start n' l'
    end.
  (** after tx_success.vld with data 0 the last packet is sent again *)
  Definition ep_again (e : nat) (t : list cyc) : Prop :=
    forall t1 c t2 w, t = t1 ++ c :: t2 -> ep_talk e (fst c) = true -> ei_sv (fst c) = true -> ei_sd (fst c) = false -> ep_sent e t1 <> [] ->
      nth_error (ep_sent e t) (length (ep_sent e (t1 ++ [c]))) = Some w -> Some w = nth_error (ep_sent e t1) (before_last 0 0 (ep_sent e t1)).
  (** without a buffer the words are passed in the same cycle *)
  Definition ep_direct (e : nat) (t : list cyc) : Prop :=
    map Some (ep_acc e t) = ep_sent e t /\
    forall c, In c t -> ep_talk e (fst c) = true -> eo_v (snd c) = ei_vld (fst c) e /\ eo_word (snd c) = Some (ei_word (fst c) e).
End S.

(** the indexes of endpoints are distinct, FIFOs have a size which is accepted (mem/fifoCopy.py:31-34) *)
Definition eps_ok (chs : list (nat * option (nat * nat))) : Prop :=
  NoDup (map fst chs) /\ forall e B M, In (e, Some (B, M)) chs -> 2 < B /\ 0 < M.
