(** Frames of a stream with a limit of words, and their sizes in bytes. *)
From Verif Require Import Base MeasModel.

Section Spec.
  Context {A : Type}.
  Variables (MAX B : nat) (strb : bool).
  Notation cyc := (me_i A * me_o A)%type.
  Definition ms_taken (x : cyc) : list (mword A) := if mi_v (fst x) && mo_rd (snd x) then [mi_w (fst x)] else [].
  Definition ms_sent (x : cyc) : list (mword A) := match mo_w (snd x) with Some w => if mi_rd (fst x) then [w] else [] | None => [] end.
  Definition ms_size (x : cyc) : list nat := match mo_s (snd x) with Some n => if mi_srd (fst x) then [n] else [] | None => [] end.
  (** valid bytes of a word: the first k of B; without strb all of them *)
  Definition valid_bytes (w : mword A) : nat := if strb then length (filter (fun b => b) (mw_s w)) else B.
  Definition strb_ok (w : mword A) : Prop := exists k, k <= B /\ mw_s w = repeat true k ++ repeat false (B - k).
  (** [n]: words of the frame so far; a frame is closed by its last word or by its (MAX + 1)-th word *)
  Definition closes (n : nat) (w : mword A) : bool := mw_l w || (n =? MAX).
  Fixpoint cut (n : nat) (ws : list (mword A)) : list (mword A) :=
    match ws with [] => [] | w :: ws' => mk_mw (mw_d w) (mw_s w) (closes n w) :: cut (if closes n w then 0 else n + 1) ws' end.
  Fixpoint sizes (n : nat) (ws : list (mword A)) : list nat :=
    match ws with [] => [] | w :: ws' => (if closes n w then [n * B + valid_bytes w] else []) ++ sizes (if closes n w then 0 else n + 1) ws' end.
  Definition misaligned (w : mword A) : Prop := mw_l w = false /\ valid_bytes w <> B.
End Spec.
