(** What a memory behind a bus of words sees, and the transfers of each channel of AxiResize. *)
From Verif Require Import Base RszModel.

(** A write of a word at address [a] of a bus with [B] bytes in a word changes these bytes; (data, strb). *)
Definition writes {V} (B a : nat) (w : list V * list bool) : list (nat * V) :=
  flat_map (fun '(j, (d, s)) => if s : bool then [(a / B * B + j, d)] else []) (combine (seq 0 B) (combine (fst w) (snd w))).
(** A read at address [a] of a memory [f] returns this word. *)
Definition word_at {V} (B : nat) (f : nat -> V) (a : nat) : list V := map f (seq (a / B * B) B).

Section Rsz.
  Context {V X P : Type}.
  Notation cyc := (rs_in V X P * rs_out V X P)%type.
  Definition when {T} (b : bool) (x : T) : list T := if b then [x] else [].
  Definition s_aw : list cyc -> list (nat * X) := flat_map (fun c => when (i_awv (fst c) && o_awrd (snd c)) (i_aw (fst c))).
  Definition m_aw : list cyc -> list (nat * X) := flat_map (fun c => when (o_mawv (snd c) && i_mawrd (fst c)) (o_maw (snd c))).
  Definition s_w : list cyc -> list (list V * list bool) := flat_map (fun c => when (i_wv (fst c) && o_wrd (snd c)) (i_w (fst c))).
  Definition m_w : list cyc -> list (list V * list bool) := flat_map (fun c => when (o_mwv (snd c) && i_mwrd (fst c)) (o_mw (snd c))).
  Definition s_ar : list cyc -> list (nat * X) := flat_map (fun c => when (i_arv (fst c) && o_arrd (snd c)) (i_ar (fst c))).
  Definition m_ar : list cyc -> list (nat * X) := flat_map (fun c => when (o_marv (snd c) && i_marrd (fst c)) (o_mar (snd c))).
  Definition m_r : list cyc -> list (list V * P) := flat_map (fun c => when (i_mrv (fst c) && o_mrrd (snd c)) (i_mr (fst c))).
  Definition s_r : list cyc -> list (list V * P) := flat_map (fun c => when (o_rv (snd c) && i_rrd (fst c)) (o_r (snd c))).

  (** the environment uses addresses of at most [OAW] bits and words of [BI] bytes *)
  Definition rs_env (BI OAW : nat) (i : rs_in V X P) : Prop :=
    fst (i_aw i) < 2 ^ OAW /\ fst (i_ar i) < 2 ^ OAW /\ length (fst (i_w i)) = BI /\ length (snd (i_w i)) = BI.
End Rsz.
