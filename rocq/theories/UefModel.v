(** Model of hwtLib/peripheral/usb/usb2/device_core.py [Usb2DeviceCore]: usb_endpoint_fsm (:153-321) with the data bits of
    define_endpoint_states (:98-151). Inputs are the signals of the receiver (sie_rx), of the endpoints and of the transmitter (sie_tx). *)
From Verif Require Import Base.

(** USB_PID, constants.py:94-140 *)
Definition P_OUT := 1. Definition P_IN := 9. Definition P_SETUP := 13. Definition P_PING := 4.
Definition P_DATA0 := 3. Definition P_DATA1 := 11.
Definition P_ACK := 2. Definition P_NACK := 10. Definition P_STALL := 14.

Inductive uf_st_t := RX_IDLE | RX_DATA | RX_DATA_IGNORE | RX_DATA_IGNORE_NO_RESP | TX_DATA | TX_DATA_COMPLETE | TX_HANDSHAKE | TX_CHIRP.

(** rst_any (:173), chirp_en; rx_header: vld, error, pid, endp; rx_data: vld, last, error; ep_rx.ready, ep_rx_stall; ep_tx: valid, last,
    ep_tx_stall (ep.tx.valid & ep.tx_stall, :468); tx_cmd.ready; values read instead of data bits which do not exist *)
Record uf_in := mk_ufi { f_rst : bool; f_chirp : bool; h_vld : bool; h_err : bool; h_pid : nat; h_endp : nat; d_vld : bool; d_last : bool;
  d_err : bool; e_rrd : bool; e_rstall : bool; e_tv : bool; e_tl : bool; e_tstall : bool; c_rd : bool; j_out : bool; j_in : bool }.
(** ep_rx.valid, ep_tx.ready, ep_tx_success.vld, tx_cmd: valid, pid ([None] is unknown), chirp; tx_cmd_extra_last *)
Record uf_out := mk_ufo { o_rv : bool; o_trd : bool; o_succ : bool; o_cv : bool; o_pid : option nat; o_chirp : bool; o_el : bool }.

Section Uef.
  (** ENDPOINT_CONFIG: endpoint has OUT, has IN *)
  Variables has_out has_in : nat -> bool.
  (** usb_endpoint_fsm_st, tx_pid, data bits of the endpoints (:104-117) *)
  Record uf_st := mk_uf { u_st : uf_st_t; u_pid : option nat; u_out : nat -> bool; u_in : nat -> bool }.
  Definition uf_init (p0 : option nat) : uf_st := mk_uf RX_IDLE p0 (fun _ => false) (fun _ => false).

  (** ep_out_data_bit and ep_in_data_bit, :119-130 *)
  Definition out_bit (s : uf_st) (i : uf_in) : bool := if has_out (h_endp i) then u_out s (h_endp i) else j_out i.
  Definition in_bit (s : uf_st) (i : uf_in) : bool := if has_in (h_endp i) then u_in s (h_endp i) else j_in i.
  (** set_ep_out_data_bit and set_ep_in_data_bit, :133-149 *)
  Definition set_out (s : uf_st) (i : uf_in) (v : bool) : nat -> bool := upd (u_out s) (h_endp i) v.
  Definition set_in (s : uf_st) (i : uf_in) (v : bool) : nat -> bool := upd (u_in s) (h_endp i) v.
  (** out_pid_error, :182-185 *)
  Definition out_pid_error (s : uf_st) (i : uf_in) : bool :=
    h_vld i && ((negb (out_bit s i) && negb (h_pid i =? P_DATA0)) || (out_bit s i && negb (h_pid i =? P_DATA1))).

  (** RX_IDLE, :195-253 *)
  Definition idle_next (s : uf_st) (i : uf_in) : uf_st :=
    if h_vld i then
      if h_pid i =? P_IN then
        if e_tstall i then mk_uf TX_HANDSHAKE (Some P_STALL) (u_out s) (u_in s)
        else if e_tv i then mk_uf TX_DATA (Some (if in_bit s i then P_DATA1 else P_DATA0)) (u_out s) (u_in s)
        else mk_uf TX_HANDSHAKE (Some P_NACK) (u_out s) (u_in s)
      else if h_pid i =? P_PING then
        mk_uf TX_HANDSHAKE (Some (if e_rstall i then P_STALL else if e_tv i then P_ACK else P_NACK)) (u_out s) (u_in s)
      else if h_pid i =? P_OUT then
        if e_rstall i then mk_uf RX_DATA_IGNORE (Some P_STALL) (u_out s) (u_in s)
        else if e_rrd i then mk_uf RX_DATA None (u_out s) (u_in s)
        else mk_uf RX_DATA_IGNORE (Some P_NACK) (u_out s) (u_in s)
      else if h_pid i =? P_SETUP then
        if e_rrd i then mk_uf RX_DATA None (set_out s i false) (set_in s i true)
        else mk_uf RX_DATA_IGNORE (Some P_NACK) (set_out s i false) (set_in s i true)
      else mk_uf RX_IDLE None (u_out s) (u_in s)
    else if f_chirp i then mk_uf TX_CHIRP None (u_out s) (u_in s)
    else mk_uf RX_IDLE None (u_out s) (u_in s).
  (** RX_DATA, :254-268 *)
  Definition data_next (s : uf_st) (i : uf_in) : uf_st :=
    if out_pid_error s i then mk_uf RX_DATA_IGNORE_NO_RESP (u_pid s) (u_out s) (u_in s)
    else if d_err i then mk_uf RX_IDLE (u_pid s) (u_out s) (u_in s)
    else if d_vld i && d_last i then mk_uf TX_HANDSHAKE (Some P_ACK) (set_out s i (negb (out_bit s i))) (u_in s)
    else s.
  (** RX_DATA_IGNORE_NO_RESP and RX_DATA_IGNORE, :269-284 *)
  Definition drop_next (s : uf_st) (i : uf_in) : uf_st :=
    if d_vld i && d_last i then mk_uf RX_IDLE (u_pid s) (u_out s) (u_in s) else s.
  Definition ignore_next (s : uf_st) (i : uf_in) : uf_st :=
    if d_vld i && d_last i then mk_uf (if d_err i then RX_IDLE else TX_HANDSHAKE) (u_pid s) (u_out s) (u_in s) else s.
  (** TX_DATA, :285-291 (ep_tx.ready is tx_cmd.ready) *)
  Definition tx_next (s : uf_st) (i : uf_in) : uf_st :=
    if e_tv i && c_rd i && e_tl i then mk_uf TX_DATA_COMPLETE (u_pid s) (u_out s) (set_in s i (negb (in_bit s i))) else s.
  (** :292-312 *)
  Definition uf_next (s : uf_st) (i : uf_in) : uf_st :=
    match u_st s with
    | RX_IDLE => idle_next s i
    | RX_DATA => data_next s i
    | RX_DATA_IGNORE_NO_RESP => drop_next s i
    | RX_DATA_IGNORE => ignore_next s i
    | TX_DATA => tx_next s i
    | TX_DATA_COMPLETE => mk_uf RX_IDLE (u_pid s) (u_out s) (u_in s)
    | TX_HANDSHAKE => if c_rd i then mk_uf RX_IDLE (u_pid s) (u_out s) (u_in s) else s
    | TX_CHIRP => if f_chirp i then s else mk_uf RX_IDLE (u_pid s) (u_out s) (u_in s)
    end.
  (** outputs, :188-193, :286-287, :295-302, :307-309, :315-320 *)
  Definition uf_o (s : uf_st) (i : uf_in) : uf_out :=
    match u_st s with
    | RX_DATA => mk_ufo (d_vld i) false false false None false false
    | TX_DATA => mk_ufo false (c_rd i) false (e_tv i) (u_pid s) false false
    | TX_DATA_COMPLETE => mk_ufo false false (c_rd i) false None false false
    | TX_HANDSHAKE => mk_ufo false (e_tstall i && c_rd i) false true (if e_tstall i then Some P_STALL else u_pid s) false true
    | TX_CHIRP => mk_ufo false false false true (Some 0) true false
    | _ => mk_ufo false false false false None false false
    end.
  (** one clock edge; rst_any is the reset of the state and of the data bits, tx_pid has no value of reset *)
  Definition uf_step (s : uf_st) (i : uf_in) : uf_st * uf_out :=
    (if f_rst i then mk_uf RX_IDLE (u_pid (uf_next s i)) (fun _ => false) (fun _ => false) else uf_next s i, uf_o s i).
End Uef.
