(** Model of hwtLib/peripheral/usb/usb2/device_core.py [Usb2DeviceCore]: detect_usb_rst (:82-96) and usb_linerate_negotiation (:326-457), connected
    as in hwImpl (:466-467, enable is 1). The only input is LineState of the PHY.
    Simplified: a millisecond is a whole number [k] of clock cycles (ms_to_clock_ticks computes with floats). *)
From Verif Require Import Base.

Inductive line := SE0 | LJ | LK | SE1.
Definition line_eqb (a b : line) : bool := match a, b with SE0, SE0 | LJ, LJ | LK, LK | SE1, SE1 => true | _, _ => false end.
Inductive ng_st_t := N_IDLE | N_WAIT_RST | N_SEND_CHIRP_K | N_WAIT_CHIRP_JK | N_FULLSPEED | N_HIGHSPEED.
Inductive speed := FullSpeed | HighSpeed.
(** usb_rst, usb_speed (None if not valid), chirp_en *)
Record ng_out := mk_no { o_rst : bool; o_speed : option speed; o_chirp : bool }.

Section Ung.
  (** clock cycles of 1 ms; the bit of se0_cntr which is tested (14) *)
  Variables k rb : nat.
  (** :369-372 *)
  Definition detach_time := k.
  Definition attach_fs_time := detach_time + 3 * k.
  Definition chirpk_time := attach_fs_time + k.
  Definition hs_reset_time := detach_time + 9 * k.
  (** usb_linerate_negotiation_state, chirp_count_q, last_LineState, usb_rst_time_q, se0_cntr *)
  Record ng_st := mk_ng { n_st : ng_st_t; n_cnt : nat; n_last : line; n_time : nat; n_se0 : nat }.
  (** :338-343, :360-361, :374, :83; the state after reset depends on PRE_NEGOTIATED_TO *)
  Definition ng_init (pre : option speed) : ng_st :=
    mk_ng (match pre with None => N_IDLE | Some FullSpeed => N_FULLSPEED | Some HighSpeed => N_HIGHSPEED end) 0 SE0 0 0.
  (** usb_rst_detected, :84 *)
  Definition ng_rst (s : ng_st) : bool := (n_se0 s / 2 ^ rb) mod 2 =? 1.
  (** :88-95 (register of rb + 1 bits) *)
  Definition se0_next (s : ng_st) (i : line) : nat :=
    match i with SE0 => if ng_rst s then n_se0 s else wrap (rb + 1) (n_se0 s + 1) | _ => 0 end.
  (** :398-443 *)
  Definition st_next (s : ng_st) : ng_st_t :=
    match n_st s with
    | N_IDLE => if detach_time <? n_time s then N_WAIT_RST else N_IDLE
    | N_WAIT_RST => if attach_fs_time <? n_time s then N_SEND_CHIRP_K else N_WAIT_RST
    | N_SEND_CHIRP_K => if chirpk_time <? n_time s then N_WAIT_CHIRP_JK else N_SEND_CHIRP_K
    | N_WAIT_CHIRP_JK => if 5 <? n_cnt s then N_HIGHSPEED else if hs_reset_time <? n_time s then N_FULLSPEED else N_WAIT_CHIRP_JK
    | N_FULLSPEED => if (hs_reset_time <? n_time s) && ng_rst s then N_WAIT_RST else N_FULLSPEED
    | N_HIGHSPEED => if (hs_reset_time <? n_time s) && ng_rst s then N_WAIT_RST else N_HIGHSPEED
    end.
  (** :363-367 *)
  Definition cnt_next (s : ng_st) (i : line) : nat :=
    match n_st s with
    | N_SEND_CHIRP_K => 0
    | N_WAIT_CHIRP_JK => if negb (line_eqb (n_last s) i) && negb (n_cnt s =? 255) then n_cnt s + 1 else n_cnt s
    | _ => n_cnt s
    end.
  Definition is_wait (x : ng_st_t) : bool := match x with N_WAIT_RST => true | _ => false end.
  (** :374-384 *)
  Definition time_next (s : ng_st) (i : line) : nat :=
    if negb (is_wait (n_st s)) && is_wait (st_next s) then 0
    else if is_wait (n_st s) && negb (line_eqb i SE0) then 0
    else if n_time s =? 2 ^ log2ceil hs_reset_time - 1 then n_time s else n_time s + 1.
  (** outputs, :444-457 *)
  Definition ng_o (s : ng_st) : ng_out :=
    mk_no (ng_rst s) (match n_st s with N_FULLSPEED => Some FullSpeed | N_HIGHSPEED => Some HighSpeed | _ => None end)
      (match n_st s with N_SEND_CHIRP_K => true | _ => false end).
  Definition ng_step (s : ng_st) (i : line) : ng_st * ng_out :=
    (mk_ng (st_next s) (cnt_next s i) i (time_next s i) (se0_next s i), ng_o s).
End Ung.
