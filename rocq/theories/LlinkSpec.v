(** Specification for the converters between Axi4Stream and LocalLink. *)
From Verif Require Import Base LlinkModel.

Section LlinkSpec.
  Context {D : Type} (B : nat).
  (** words which start a frame: the first one and those behind a last one *)
  Fixpoint firsts (prev : bool) (lasts : list bool) : list bool :=
    match lasts with [] => [] | l :: r => prev :: firsts l r end.

  (** [n] bytes from byte 0 on *)
  Definition bytes_from_0 (n : nat) (s : list bool) : Prop := length s = B /\ forall k, k < B -> nth k s false = (k <? n).
  (** all bytes are used, but for the last word of a frame or of a packet, which has at least one *)
  Definition word_ok (w : axi_word D) : Prop :=
    exists s n, a_strb w = Some s /\ bytes_from_0 n s /\ 1 <= n <= B /\ (a_last w = false -> a_eop w = false -> n = B).

  (** words which were transferred *)
  Definition sent (t : list ((bool * axi_word D * bool) * (bool * axi_word D * bool))) : list (axi_word D) :=
    map (fun c => snd (fst (fst c))) (filter (fun c => fst (fst (fst c)) && snd (snd c)) t).
  Definition received (t : list ((bool * axi_word D * bool) * (bool * axi_word D * bool))) : list (axi_word D) :=
    map (fun c => snd (fst (snd c))) (filter (fun c => fst (fst (snd c)) && snd (fst c)) t).
  (** a frame starts and ends a packet *)
  Definition completed (f : bool) (w : axi_word D) : axi_word D := mk_a (a_data w) (a_strb w) (a_last w) (a_sop w || f) (a_eop w || a_last w).
  Definition complete (ws : list (axi_word D)) : list (axi_word D) :=
    map (fun x => completed (fst x) (snd x)) (combine (firsts true (map a_last ws)) ws).

  (** transfers of LocalLink, all signals are active in 0 *)
  Definition ll_taken (c : (bool * ll_word D * bool) * (bool * ll_word D * bool)) : bool := negb (fst (fst (fst c))) && negb (snd (fst c)).
  Definition ll_sent t : list (ll_word D) := map (fun c => snd (fst (fst c))) (filter ll_taken t).
  Definition ll_received t : list (ll_word D) := map (fun c => snd (fst (snd c))) (filter ll_taken t).
  (** rem is the number of the last byte; it is the last byte of the word but for the last word of a frame or packet; frames start
      and end packets *)
  Definition ll_ok (w : ll_word D) : Prop :=
    (exists r, l_rem w = Some r /\ r < B /\ (l_eof_n w = true -> l_eop_n w = true -> r = B - 1)) /\
    (l_sof_n w = false -> l_sop_n w = false) /\ (l_eof_n w = false -> l_eop_n w = false).
  Definition ll_frames (ws : list (ll_word D)) : Prop :=
    Forall ll_ok ws /\ map (fun w => negb (l_sof_n w)) ws = firsts true (map (fun w => negb (l_eof_n w)) ws).
End LlinkSpec.
