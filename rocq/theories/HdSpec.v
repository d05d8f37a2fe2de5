(** What the display has to be told to print a text. *)
From Verif Require Import Base HdModel.

Section Spec.
  Variables (ROWS COLS : nat).
  (** the cursor is moved to the beginning of a line *)
  Definition jump (row : nat) : hd_cmd := ctl_cmd false (Some (ddram_addr_set (row * COLS))).
  Definition next_row (row : nat) : nat := if row =? ROWS - 1 then 0 else row + 1.
  (** commands of a character and the row after it; newline jumps to the next line, cleans it and jumps to its beginning, form feed
      cleans the display and jumps to the first line *)
  Definition char_cmds (row c : nat) : list hd_cmd :=
    if c =? NL then [jump (next_row row)] ++ repeat (dat_cmd SPACE) COLS ++ [jump (next_row row)]
    else if c =? FF then [ctl_cmd true (Some CLEAR)]
    else [dat_cmd c].
  Definition char_row (row c : nat) : nat := if c =? NL then next_row row else if c =? FF then 0 else row.
  Fixpoint text_cmds (row : nat) (text : list nat) : list hd_cmd :=
    match text with [] => [] | c :: text' => char_cmds row c ++ text_cmds (char_row row c) text' end.
  Definition text_row (text : list nat) : nat := fold_left char_row text 0.
  (** form feeds are used on the first line only *)
  Fixpoint ff_first (row : nat) (text : list nat) : Prop :=
    match text with [] => True | c :: text' => (c = FF -> row = 0) /\ ff_first (char_row row c) text' end.
End Spec.

(** characters and commands which were transferred *)
Definition taken (t : list (hd_in * hd_out)) : list nat :=
  flat_map (fun io => if hi_vld (fst io) && ho_rd (snd io) then [hi_data (fst io)] else []) t.
Definition sent (t : list (hd_in * hd_out)) : list (option hd_cmd) :=
  flat_map (fun io => if ho_vld (snd io) && hi_rd (fst io) then [ho_cmd (snd io)] else []) t.
(** an offered character is kept until it is taken *)
Fixpoint held (t : list (hd_in * hd_out)) : Prop :=
  match t with
  | c :: ((c' :: _) as t') =>
      (hi_vld (fst c) = true -> ho_rd (snd c) = false -> hi_vld (fst c') = true /\ hi_data (fst c') = hi_data (fst c)) /\ held t'
  | _ => True
  end.
(** what was sent: all commands of the characters taken and the beginning of the commands of the one which is offered *)
Definition told (ROWS COLS : nat) (t : list (hd_in * hd_out)) : Prop :=
  exists part : list hd_cmd, sent t = map Some (text_cmds ROWS COLS 0 (taken t) ++ part) /\
    (part = [] \/ exists t' c q, t = t' ++ [c] /\ hi_vld (fst c) = true /\ ho_rd (snd c) = false /\
      char_cmds ROWS COLS (text_row ROWS (taken t)) (hi_data (fst c)) = part ++ q /\ q <> []).

(** the number of rows is a power of two: the counter of rows has exactly LCD_ROWS values *)
Definition full_rows (ROWS : nat) : Prop := exists k, 1 <= k /\ ROWS = 2 ^ k.
(** the last column fits to the counter of columns (HBits(log2ceil(LCD_COLS - 1)), driver.py:118); the constant is refused otherwise *)
Definition cols_fit (COLS : nat) : Prop := 1 <= COLS <= 2 ^ log2ceil (COLS - 1).
