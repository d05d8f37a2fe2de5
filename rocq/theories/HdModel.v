(** Model of hwtLib/peripheral/displays/hd44780/driver.py:99-188 [Hd44780Driver._translate_data_in].
    The initialisation sequence, the timers and the pins of the display (_io_core) are not modelled. *)
From Verif Require Import Base.

(** pins driven by the neighbours: dataIn and ready of the commands *)
Record hd_in := mk_hdi { hi_vld : bool; hi_data : nat; hi_rd : bool }.
(** a command; [hc_d] is [None] where the ROM of offsets is read outside *)
Record hd_cmd := mk_hdc { hc_rs : bool; hc_rw : bool; hc_long : bool; hc_d : option nat }.
Record hd_out := mk_hdo { ho_rd : bool; ho_vld : bool; ho_cmd : option hd_cmd }.
Inductive hd_fsm := RowIncr | JmpNext | CleanLine | JmpStart.
(** row, col, new_line_fsm, and the last values of dataIn.rd and dout.vld, which are not driven in the state clean_line and keep their values *)
Record hd_st := mk_hds { h_row : nat; h_col : nat; h_fsm : hd_fsm; h_lrd : bool; h_lvld : bool }.

Definition NL : nat := 10.
Definition FF : nat := 12.
(** intf.py:83-88, :33, :124 *)
Definition ctl_cmd (long : bool) (d : option nat) : hd_cmd := mk_hdc false false long d.
Definition dat_cmd (d : nat) : hd_cmd := mk_hdc true false false (Some d).
Definition CLEAR : nat := 1.
Definition SPACE : nat := 32.
Definition ddram_addr_set (a : nat) : nat := Nat.lor 128 a.

Section Hd.
  (** LCD_ROWS, LCD_COLS *)
  Variables (ROWS COLS : nat).
  (** width of row, :107; width of col, :118 *)
  Definition row_w : nat := log2ceil (ROWS - 1).
  Definition col_w : nat := log2ceil (COLS - 1).
  (** line_offset, :108-113 *)
  Definition line_offset (row : nat) : option nat := nth_error (map (fun i => ddram_addr_set (i * COLS)) (seq 0 ROWS)) row.

  Definition is_nl (i : hd_in) : bool := hi_vld i && (hi_data i =? NL).
  Definition is_ff (i : hd_in) : bool := hi_vld i && (hi_data i =? FF).
  (** dout, dataIn.rd, :148-186 *)
  Definition hd_o (s : hd_st) (i : hd_in) : hd_out :=
    if is_nl i then
      match h_fsm s with
      | RowIncr => mk_hdo false false None
      | JmpNext => mk_hdo false true (Some (ctl_cmd false (line_offset (h_row s))))
      | CleanLine => mk_hdo (h_lrd s) (h_lvld s) (Some (dat_cmd SPACE))
      | JmpStart => mk_hdo (hi_rd i) (hi_vld i) (Some (ctl_cmd false (line_offset (h_row s))))
      end
    else if is_ff i then mk_hdo (hi_rd i) (hi_vld i) (Some (ctl_cmd true (Some CLEAR)))
    else mk_hdo (hi_rd i) (hi_vld i) (Some (dat_cmd (hi_data i))).
  (** new_line_fsm, :130-139 *)
  Definition hd_fsm_next (s : hd_st) (i : hd_in) : hd_fsm :=
    match h_fsm s with
    | RowIncr => if is_nl i then JmpNext else RowIncr
    | JmpNext => if hi_rd i then CleanLine else JmpNext
    | CleanLine => if hi_rd i && (h_col s =? COLS - 1) then JmpStart else CleanLine
    | JmpStart => if hi_rd i then RowIncr else JmpStart
    end.
  (** :150-171 *)
  Definition hd_row_next (s : hd_st) (i : hd_in) : nat :=
    if is_nl i then match h_fsm s with RowIncr => winc row_w (h_row s) | _ => h_row s end else h_row s.
  Definition hd_col_next (s : hd_st) (i : hd_in) : nat :=
    if is_nl i then
      match h_fsm s with
      | JmpNext => 0
      | CleanLine => if hi_rd i then winc col_w (h_col s) else h_col s
      | _ => h_col s
      end
    else h_col s.
  Definition hd_step (s : hd_st) (i : hd_in) : hd_st * hd_out :=
    (mk_hds (hd_row_next s i) (hd_col_next s i) (hd_fsm_next s i) (ho_rd (hd_o s i)) (ho_vld (hd_o s i)), hd_o s i).
  (** the latches have any value after reset *)
  Definition hd_init (lrd lvld : bool) : hd_st := mk_hds 0 0 RowIncr lrd lvld.
End Hd.
