(** Reset and high-speed detection handshake of USB 2.0 on the line states. *)
From Verif Require Import Base UngModel.

(** cycles of SE0 at the end *)
Fixpoint se0_run (l : list line) (n : nat) : nat :=
  match l with [] => n | SE0 :: l' => se0_run l' (n + 1) | _ :: l' => se0_run l' 0 end.
(** no SE0 of [n] cycles in the list: a run is ended by another state before it *)
Definition short_runs (n : nat) (l : list line) : Prop := forall a b, l = a ++ b -> se0_run a 0 < n.
Definition ended (l : list line) : Prop := match rev l with SE0 :: _ => False | _ => True end.
(** changes of the line *)
Fixpoint changes (prev : line) (l : list line) : nat :=
  match l with [] => 0 | x :: l' => (if line_eqb prev x then 0 else 1) + changes x l' end.
(** what is seen, without usb_rst *)
Definition seen (o : ng_out) : option speed * bool := (o_speed o, o_chirp o).
