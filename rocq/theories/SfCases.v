(** Data of the examples of the formatter. *)
From Verif Require Import Base SfModel SfSpec.
(** "n={0:2d},{1:3x} {2:s}" *)
Definition ex_items : list sf_item := [SStr [110; 61]; SNum Td 0 2; SStr [44]; SNum Tx 1 3; SIn 2].
Definition ex_fw (f : nat) : nat := if f =? 0 then 7 else 9.
Definition ex_num (f : nat) : N := if f =? 0 then 42%N else if f =? 1 then 431%N else 0%N.
Definition ex_cyc (rdy v : bool) (d : nat) (l : bool) : sf_in := mk_sfi rdy ex_num (fun _ => v) (fun _ => d) (fun _ => l).
Definition ex_run : list sf_in :=
  repeat (ex_cyc true false 0 false) 8 ++ repeat (ex_cyc false true 104 false) 4 ++ repeat (ex_cyc true true 104 false) 9 ++
  [ex_cyc true false 0 true; ex_cyc false true 105 true; ex_cyc true true 105 true; ex_cyc true true 0 true].
