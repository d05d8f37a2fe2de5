(** Runs of the display driver. *)
From Verif Require Import Base HdModel.

Definition hd_char (n c : nat) : list hd_in := repeat (mk_hdi true c true) n.
(** newline, form feed, newline on a display with two lines of two characters *)
Definition hd_ff_run : list hd_in := hd_char 5 NL ++ hd_char 1 FF ++ hd_char 5 NL.
(** newline on a display with one line of eight characters *)
Definition hd_row_run : list hd_in := hd_char 11 NL.
(** a text with a pause of the display *)
Definition hd_run : list hd_in :=
  hd_char 1 FF ++ hd_char 1 65 ++ [mk_hdi true NL false; mk_hdi true NL false] ++ hd_char 3 NL ++ [mk_hdi true NL false] ++ hd_char 1 NL ++ [mk_hdi false 0 true] ++ hd_char 1 66.
