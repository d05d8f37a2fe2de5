(** Runs used by examples of UlpProps. *)
From Verif Require Import Base UlpModel.

(** a cycle of the link (dir low) and of the PHY with default values of the control inputs *)
Definition lnk (n tv : bool) (td : nat) : ulp_in := mk_ui false n 0 tv td fc_default otg_default.
Definition ph (n : bool) (d : nat) : ulp_in := mk_ui true n d false 0 fc_default otg_default.
(** a cycle of the link with given control inputs and no packet *)
Definition ctl (n : bool) (f g : nat) : ulp_in := mk_ui false n 0 false 0 (f, false) g.
Definition tx_run : list ulp_in :=
  [lnk false false 0; lnk false true 195; lnk false true 17; ph false 0; ph false 0; lnk false true 17; lnk true true 17; lnk true true 34; lnk true false 0; lnk false true 210; lnk true false 0; lnk false false 0].
Definition reg_run : list ulp_in :=
  [ctl false 72 0; ctl false 72 0; ctl true 72 0; mk_ui true false 0 false 0 (72, false) 0; ctl false 72 0; ctl false 72 0; ctl true 72 0; ctl true 72 0; ctl false 72 0; ctl true 72 0; ctl true 72 0].
Definition stale_run : list ulp_in := [ctl false 72 6; ctl false 72 6; ctl true 80 6; ctl true 80 6; ctl false 80 6].
Definition rx_run : list ulp_in := [ph false 6; ph false 17; ph true 105; ph false 17; ph true 7; ph true 9; ph false 2; lnk false false 0].
