(** What the helpers of caches have to do. *)
From Verif Require Import Base CutModel.

(** the bit k after a write with byte enables *)
Definition written_bit (current new mask : bits) (k : nat) : bool := if nth (k / 8) mask false then nth k new false else nth k current false.
(** the shortest extension by zeros at the top to whole bytes *)
Definition is_extension (sig r : bits) : Prop := exists n, n < 8 /\ r = sig ++ repeat false n /\ length r mod 8 = 0.
(** the last key written to the index, 0 if there is none; a write is index and key *)
Fixpoint last_written (i : nat) (ws : list (option (nat * N))) : N :=
  match ws with [] => 0%N | w :: ws' => match w with Some (a, d) => if (a =? i) && negb (existsb (fun x => match x with Some (b, _) => b =? i | None => false end) ws') then d else last_written i ws' | None => last_written i ws' end end.
