(** What a user of the frame generator sees. *)
From Verif Require Import Base FgModel.

(** words (data, last) transferred on the output *)
Fixpoint sent (t : list (g_in * g_out)) : list (nat * bool) :=
  match t with
  | [] => []
  | (i, o) :: t' => if go_v o && gi_rd i then (go_d o, go_l o) :: sent t' else sent t'
  end.
(** the frame for the length [L]: words L, L - 1, ..., 0 cut to DW bits, last on the last one *)
Definition frame_of (DW L : nat) : list (nat * bool) := map (fun k => (k mod 2 ^ DW, k =? 0)) (rev (seq 0 (L + 1))).
(** [l] are the first words of frames which follow each other without end *)
Definition frames_prefix (f l : list (nat * bool)) : Prop := exists n rest, concat (repeat f n) = l ++ rest.
(** "len" is not written *)
Definition no_len (i : g_in) : Prop := gi_len i = None.
(** no register is written *)
Definition quiet (i : g_in) : Prop := gi_len i = None /\ gi_en i = None.
(** a word which was not taken is offered again *)
Fixpoint held (t : list (g_in * g_out)) : Prop :=
  match t with
  | (i, o) :: (((_, o') :: _) as t') =>
      (go_v o = true -> gi_rd i = false -> go_v o' = true /\ go_d o' = go_d o /\ go_l o' = go_l o) /\ held t'
  | _ => True
  end.
(** the cycle is one with a transferred word *)
Definition moves (c : g_in * g_out) : bool := go_v (snd c) && gi_rd (fst c).
