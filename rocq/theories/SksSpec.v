(** Masks of the parts of a word. *)
From Verif Require Import Base SksModel.
Local Open Scope nat_scope.

(** mask bits of an item: one for each byte of padding *)
Definition mask_of (x : item) : list bool := match x with Pad len v => repeat v (len / 8) | Sig bits => bits end.
(** padding of whole bytes *)
Definition item_ok (x : item) : Prop := match x with Pad len _ => 0 < len /\ len mod 8 = 0 | Sig _ => True end.
(** a padding is not directly before a signal *)
Fixpoint pads_after (l : list item) : Prop :=
  match l with
  | [] => True
  | Pad _ _ :: l' => match l' with Sig _ :: _ => False | _ => True end /\ pads_after l'
  | Sig _ :: l' => pads_after l'
  end.
(** the dictionary of masks with enables *)
Definition dict_of (l : list (bool * list bool)) : list (list bool * list bool) := fold_left (fun d x => dict_add (snd x) (fst x) d) l [].
(** exactly the mask [m] is enabled *)
Definition selects (l : list (bool * list bool)) (m : list bool) : Prop := In (true, m) l /\ forall m', In (true, m') l -> m' = m.
Definition whole (m : list bool) : list item := [Sig m].
(** the stash with its enable has the mask [y] for strb and for keep *)
Definition has_mask (x : bool * stash) (y : bool * list bool) : Prop :=
  fst x = fst y /\ vec_to_signal (k_strb (snd x)) = Some (snd y) /\ vec_to_signal (k_keep (snd x)) = Some (snd y).
