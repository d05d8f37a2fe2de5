(** Specification of a change of the width of an AXI stream. *)
From Verif Require Import Base StreamSpec AxisResizerModel.

Section Spec.
  Context {S A : Type}.
  Notation cell := (A * bool)%type.
  Notation word := (axw S A).

  (** What a word means: its valid bytes and, on the last word of a frame, the end of the frame with its side signals. *)
  Inductive event := Byte (a : A) | End (s : S).
  Definition events (w : word) : list event :=
    map (fun c => Byte (fst c)) (filter snd (w_cells w)) ++ (if w_last w then [End (w_side w)] else []).

  (** Packing of narrow words of [n] bytes by [k] to wide ones; a frame starts in a new wide word, missing parts are padded
      with invalid zero bytes.  [cur] are the narrow words of the current wide word. *)
  Definition wide (z : A) (n k : nat) (cur : list word) (w : word) : word :=
    mk_axw (concat (map w_cells (cur ++ [w])) ++ repeat (z, false) (n * (k - length (cur ++ [w])))) (w_side w) (w_last w).
  Fixpoint pack (z : A) (n k : nat) (cur ws : list word) : list word :=
    match ws with
    | [] => []
    | w :: ws' => if w_last w || (length (cur ++ [w]) =? k) then wide z n k cur w :: pack z n k [] ws'
                  else pack z n k (cur ++ [w]) ws'
    end.

  (** Parts of [m] bytes of a wide word: parts after the last valid byte are left out, but not the first part. *)
  Fixpoint parts (k m : nat) (cells : list cell) : list (list cell) :=
    match k with
    | 0 => []
    | Datatypes.S k' => firstn m cells :: (if existsb snd (skipn m cells) then parts k' m (skipn m cells) else [])
    end.
  Fixpoint mark (s : S) (l : bool) (ps : list (list cell)) : list word :=
    match ps with
    | [] => []
    | [p] => [mk_axw p s l]
    | p :: ps' => mk_axw p s false :: mark s l ps'
    end.
  Definition unpack (k m : nat) (w : word) : list word := mark (w_side w) (w_last w) (parts k m (w_cells w)).

  Definition rz_obs (c : rz_in S A * rz_out S A) : hs_cycle word word :=
    mk_hs (rz_vld (fst c)) (rz_rd (snd c)) (rz_word (fst c)) (rz_ovld (snd c)) (rz_ord (fst c)) (rz_oword (snd c)).
End Spec.
Arguments event : clear implicits.
