(** Frames which Axi4SFifoDrop has to keep. *)
From Verif Require Import Base AfdModel.

Section S.
  Context {A : Type}.
  Local Notation word := (A * bool)%type.
  Local Notation cyc := (afi A * afo A)%type.
  (** (words of finished frames which were not discarded, words of the current frame) after one more clock *)
  Definition keep_step (p : list word * list word) (c : cyc) : list word * list word :=
    if f_disc (fst c) then (fst p, [])
    else match f_in (fst c) with
         | Some w => if fo_in (snd c) then (if snd w then (fst p ++ snd p ++ [w], []) else (fst p, snd p ++ [w])) else p
         | None => p
         end.
  Definition keep (t : list cyc) : list word * list word := fold_left keep_step t ([], []).
  (** words on dataOut *)
  Fixpoint sent (t : list cyc) : list word := match t with [] => [] | c :: t' => match fo_out (snd c) with Some w => w :: sent t' | None => sent t' end end.
  (** guard: discard only while dataOut is blocked, and not together with the last word *)
  Definition calm (c : cyc) : Prop :=
    f_disc (fst c) = true -> fo_vld (snd c) = true /\ f_rd (fst c) = false /\ forall w, f_in (fst c) = Some w -> snd w = false.
End S.
