(** Model of Axi4S_footerSplit: hwtLib/amba/axis_comp/frame_parser/footer_split.py.
    Simplification: exactly one of keep and strb is used (with both the code takes the mask of the input from keep and masks
    both in the same way), bytes are of an abstract type, B = DATA_WIDTH/8, F = FOOTER_WIDTH/8. *)
From Verif Require Import Base.

Section M.
Context {byte : Type}.
Variables B F : nat.

(** LOOK_AHEAD = ceil(FOOTER_WIDTH / D_W) (hwImpl l.236) *)
Definition LA : nat := (F + B - 1) / B.

(** A word of Axi4Stream: data, keep (or strb), last. *)
Record word := mk_w { w_d : list byte; w_k : list bool; w_l : bool }.
(** reg_t and its is_footer (generate_regs l.137-181) *)
Record cell := mk_c { c_v : bool; c_w : word; c_m : list bool }.
(** r1, ..., out_reg in this order and d0_sof_seen (l.150-166, l.263) *)
Record fs_state := mk_fs { fs_regs : list cell; fs_sof : bool }.
Record fs_in := mk_i { i_v : bool; i_w : word; i_r0 : bool; i_r1 : bool }.
Record fs_out := mk_o { o_rd : bool; o0_v : bool; o0_w : word; o1_v : bool; o1_w : word }.

Definition zeros : list bool := repeat false B.
(** The reset values; the words are not reset (l.157-165) *)
Definition fs_init (ws : list word) : fs_state := mk_fs (map (fun w => mk_c false w zeros) ws) false.

(** bytes_in_last_input_word selected by the SwitchLogic over the first 0 of the mask of the input (l.205-250) *)
Definition last_bytes (k : list bool) : nat :=
  match find (fun n => negb (nth n k true)) (seq 1 (B - 1)) with Some n => n | None => B end.
(** _is_footer: bits footer_start .. footer_start + FOOTER_WIDTH/8 (l.207-222) *)
Definition foot_bit (n p : nat) : bool :=
  let start := LA * B + n - F in (start <=? p) && (p <? start + F).
(** BYTE_CNT bits of _is_footer from x * BYTE_CNT (get_bit_range, l.227-243) *)
Definition foot_range (n x : nat) : list bool := map (fun b => foot_bit n (x * B + b)) (seq 0 B).
(** is_footer_set_val of the register i > 0 (l.240-243) and of dataIn (l.225-238) *)
Definition set_val (n i : nat) : list bool := foot_range n (LA + 1 - i).
Definition din_mask (set : bool) (n : nat) : list bool := if set then foot_range n LA else zeros.

(** The ready of the register at the head of the list: a register is ready if it is empty or the next one is ready (l.317),
    [x] is the second part of the ready of out_reg (l.300-305) *)
Fixpoint rdy (x : bool) (cs : list cell) : bool :=
  match cs with [] => x | c :: cs' => negb (c_v c) || rdy x cs' end.
(** can_flush of the register from the one of the previous (l.183-187) *)
Definition flush (pf : bool) (c : cell) : bool := (c_v c && w_l (c_w c)) || pf.
(** The next value of the register i with the previous one p and its can_flush pf (l.319-346) *)
Definition next_cell (dv set : bool) (n i : nat) (p : cell) (pf : bool) (c : cell) (ready : bool) : cell :=
  let cf := flush pf c in
  let pv := c_v p && (dv || pf) in
  let s := set && negb (c_v p && w_l (c_w p)) in
  if ready then
    mk_c (if s then c_v p else if pv then c_v p else if cf then false else c_v c)
         (if pv || cf then c_w p else c_w c)
         (if s then set_val n i else if pv then c_m p else if cf then zeros else c_m c)
  else c.
Fixpoint shift (dv set : bool) (n i : nat) (p : cell) (pf x : bool) (cs : list cell) : list cell :=
  match cs with
  | [] => []
  | c :: cs' => next_cell dv set n i p pf c (rdy x cs) :: shift dv set n (S i) c (flush pf c) x cs'
  end.
(** can_flush of the last register of the list *)
Definition flush_all (cs : list cell) : bool := fold_left flush cs false.

(** The ports (l.255-305) *)
Definition fs_step (s : fs_state) (i : fs_in) : fs_state * fs_out :=
  let z := mk_c false (i_w i) zeros in
  let r := last (fs_regs s) z in
  let prev := last (removelast (fs_regs s)) z in
  let en := i_v i || flush_all (fs_regs s) in
  let m := c_m r in
  let d1_en := existsb id m in
  let m0 := nth 0 m false in
  let zero_len := d1_en && m0 && negb (fs_sof s) && c_v r && w_l (c_w r) in
  let d0_en := negb m0 || zero_len in
  let last0 := existsb id m || (c_v prev && nth 0 (c_m prev) false) in
  let v0 := c_v r && d0_en && en && (negb d1_en || i_r1 i) in
  let v1 := c_v r && d1_en && en && (negb d0_en || i_r0 i) in
  let keep0 := map (fun x => fst x && negb (snd x) && negb zero_len) (combine (w_k (c_w r)) m) in
  let keep1 := map (fun x => fst x && snd x) (combine (w_k (c_w r)) m) in
  let x := (i_r0 i || negb d0_en) && (i_r1 i || negb d1_en) in
  let set := i_v i && w_l (i_w i) in
  let n := last_bytes (w_k (i_w i)) in
  let din := mk_c (i_v i) (i_w i) (din_mask set n) in
  (mk_fs (shift (i_v i) set n 1 din false x (fs_regs s))
         (if v1 && i_r1 i && w_l (c_w r) then false else if v0 && i_r0 i then true else fs_sof s),
   mk_o (rdy x (fs_regs s)) v0 (mk_w (w_d (c_w r)) keep0 last0) v1 (mk_w (w_d (c_w r)) keep1 (w_l (c_w r)))).
End M.
Arguments word : clear implicits. Arguments cell : clear implicits. Arguments fs_state : clear implicits.
Arguments fs_in : clear implicits. Arguments fs_out : clear implicits.
