(** C154: a text is printed on the display. *)
From Verif Require Import Base HdModel HdSpec HdProofs HdCases.

(** guard: the number of rows is a power of two and form feeds are used on the first line *)
Theorem C154_told_partial : forall (ROWS COLS : nat) (lrd lvld : bool) (is : list hd_in), full_rows ROWS -> cols_fit COLS ->
  let t := trace (hd_step ROWS COLS) (hd_init lrd lvld) is in
  held t -> ff_first ROWS 0 (taken t) -> told ROWS COLS t.
Proof. intros ROWS COLS lrd lvld is HR HC. exact (c154 ROWS COLS (rows_full _ HR) (cols_full _ HC) is lrd lvld). Qed.
Print Assumptions C154_told_partial.

(** with a display which is always ready each character is taken within COLS + 3 cycles *)
Theorem C154_progress : forall (ROWS COLS : nat) (lrd lvld : bool) (is js : list hd_in), full_rows ROWS -> cols_fit COLS ->
  held (trace (hd_step ROWS COLS) (hd_init lrd lvld) (is ++ js)) ->
  ff_first ROWS 0 (taken (trace (hd_step ROWS COLS) (hd_init lrd lvld) is)) ->
  (forall i, In i js -> hi_vld i = true /\ hi_rd i = true) -> COLS + 3 <= length js ->
  taken (trace (hd_step ROWS COLS) (final (hd_step ROWS COLS) (hd_init lrd lvld) is) js) <> [].
Proof. intros ROWS COLS lrd lvld is js HR HC. exact (c154_progress ROWS COLS (rows_full _ HR) (cols_full _ HC) is lrd lvld js). Qed.
Print Assumptions C154_progress.

(** the row is not cleared by form feed: the newline after it goes to a wrong line *)
Theorem C154_form_feed_refuted : exists (ROWS COLS : nat) (is : list hd_in), full_rows ROWS /\ cols_fit COLS /\ forall lrd lvld : bool,
  let t := trace (hd_step ROWS COLS) (hd_init lrd lvld) is in held t /\ ~ told ROWS COLS t.
Proof.
  exists 2, 2, hd_ff_run. split; [exists 1; split; [lia|reflexivity]|]. split; [vm_compute; lia|]. intros lrd lvld.
  split; [destruct lrd, lvld; vm_compute; intuition congruence|]. apply untold; destruct lrd, lvld; vm_compute; congruence.
Qed.
Print Assumptions C154_form_feed_refuted.

(** with one line the newline jumps behind the last line *)
Theorem C154_rows_refuted : exists (ROWS COLS : nat) (is : list hd_in), 1 <= ROWS /\ cols_fit COLS /\ forall lrd lvld : bool,
  let t := trace (hd_step ROWS COLS) (hd_init lrd lvld) is in held t /\ ff_first ROWS 0 (taken t) /\ ~ told ROWS COLS t.
Proof.
  exists 1, 8, hd_row_run. split; [lia|]. split; [vm_compute; lia|]. intros lrd lvld.
  split; [destruct lrd, lvld; vm_compute; intuition congruence|]. split; [destruct lrd, lvld; vm_compute; intuition congruence|].
  apply untold; destruct lrd, lvld; vm_compute; congruence.
Qed.
Print Assumptions C154_rows_refuted.

(** the hypotheses hold for a text with a form feed, a newline and a pause *)
Example C154_told_case : full_rows 2 /\ cols_fit 2 /\ full_rows 4 /\ cols_fit 20 /\
  let t := trace (hd_step 2 2) (hd_init true false) hd_run in
  held t /\ ff_first 2 0 (taken t) /\ taken t = [FF; 65; NL; 66] /\
  sent t = map Some [ctl_cmd true (Some 1); dat_cmd 65; ctl_cmd false (Some 130); dat_cmd 32; dat_cmd 32; ctl_cmd false (Some 130); dat_cmd 66].
Proof.
  split; [exists 1; split; [lia|reflexivity]|]. split; [vm_compute; lia|]. split; [exists 2; split; [lia|reflexivity]|]. split; [vm_compute; lia|].
  split; [vm_compute; intuition congruence|]. split; [vm_compute; intuition congruence|]. split; reflexivity.
Qed.
Example C154_progress_case : held (trace (hd_step 2 2) (hd_init true false) (hd_char 1 65 ++ hd_char 5 NL)) /\
  (forall i, In i (hd_char 5 NL) -> hi_vld i = true /\ hi_rd i = true) /\ 2 + 3 <= length (hd_char 5 NL).
Proof.
  split; [vm_compute; intuition congruence|]. split; [|cbn; lia]. intros i Hi. apply repeat_spec in Hi. subst. auto.
Qed.
