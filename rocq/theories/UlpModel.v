(** Model of hwtLib/peripheral/usb/usb2/utmi_to_ulpi.py [Utmi_to_Ulpi]. *)
From Verif Require Import Base.

(** function_control: XcvrSelect, TermSelect, OpMode and SuspendM as the bits 0-4 and 6 of a number (bit 5 is 0), and Reset (bit 5); utmi.py:63-70 *)
Definition fctl : Type := nat * bool.
Definition fc_num (f : fctl) : nat := fst f + (if snd f then 32 else 0).
Definition fc_eqb (f g : fctl) : bool := (fst f =? fst g) && eqb (snd f) (snd g).
(** ulpi.py:157-172 *)
Definition fc_default : fctl := (65, false).
Definition otg_default : nat := 6.

(** state_t.w is never used *)
Inductive lst := LIdle | LCmd | LData | LReg.
(** HostDisconnect, VbusValid, SessValid, SessEnd, IdGnd *)
Record intr := mk_intr { HostDisconnect : bool; VbusValid : bool; SessValid : bool; SessEnd : bool; IdGnd : bool }.
Record ulp_st := mk_ul {
  state_q : lst; mode_update : bool; fc_q : fctl; mode_write : bool; otg_update : bool; otg_q : nat; otg_write : bool;
  data_q : nat; udata_q : nat; stp_q : bool;
  rxvalid : bool; rxerror : bool; rxactive : bool; linestate : nat; rxdata : nat; intr_q : intr; dir_q : bool }.
(** ulpi: dir (true = PHY), nxt, data.i; utmi: tx.vld, tx.data, function_control, otg_control *)
Record ulp_in := mk_ui { dir : bool; nxt : bool; di : nat; txv : bool; txd : nat; fc : fctl; otg : nat }.
(** ulpi: data.o, data.t (each bit the same), stp; utmi: tx.rd, rx.data, rx.valid, rx.active, rx.error, LineState, interrupt *)
Record ulp_out := mk_uo { uo_d : nat; uo_t : bool; uo_stp : bool; uo_rd : bool; uo_rxd : nat; uo_rxv : bool; uo_rxa : bool; uo_rxe : bool; uo_ls : nat; uo_int : intr }.

Definition is_l (a b : lst) : bool := match a, b with LIdle, LIdle | LCmd, LCmd | LData, LData | LReg, LReg => true | _, _ => false end.
(** utmi_to_ulpi.py:41-48 *)
Definition turnaround (s : ulp_st) (i : ulp_in) : bool := negb (eqb (dir_q s) (dir i)).
(** :110, :119 *)
Definition mode_complete (s : ulp_st) (i : ulp_in) : bool := is_l (state_q s) LReg && mode_write s && nxt i && negb (dir i).
Definition otg_complete (s : ulp_st) (i : ulp_in) : bool := is_l (state_q s) LReg && otg_write s && nxt i && negb (dir i).
(** :183-190 *)
Definition accept (s : ulp_st) (i : ulp_in) : bool :=
  negb (turnaround s i) && negb (dir i) &&
  ((is_l (state_q s) LIdle && negb (mode_update s || otg_update s || turnaround s i)) || (is_l (state_q s) LData && nxt i)).
(** bits [a, a + n) *)
Definition bits (x a n : nat) : nat := (x / 2 ^ a) mod 2 ^ n.
(** parse_RX_CMD, :51-83: (linestate, interrupt, rxactive, rxerror) *)
Definition rx_cmd (b : nat) (q : intr) (act err : bool) : nat * intr * bool * bool :=
  let q1 := match bits b 2 2 with
            | 0 => mk_intr (HostDisconnect q) false false true (IdGnd q)
            | 1 => mk_intr (HostDisconnect q) false false false (IdGnd q)
            | 2 => mk_intr (HostDisconnect q) false true (SessEnd q) (IdGnd q)
            | _ => mk_intr (HostDisconnect q) true (SessValid q) (SessEnd q) (IdGnd q)
            end in
  let '(hd, act', err') := match bits b 4 2 with
            | 0 => (HostDisconnect q, false, false)
            | 1 => (HostDisconnect q, true, false)
            | 2 => (true, act, err)
            | _ => (HostDisconnect q, true, true)
            end in
  (bits b 0 2, mk_intr hd (VbusValid q1) (SessValid q1) (SessEnd q1) (bits b 6 1 =? 1), act', err').
(** ULPI_TX_CMD.USB_PID, REGW, ulpi.py:44-66; ULPI_REG :105, :107 *)
Definition cmd_pid (d : nat) : nat := 64 + d mod 16.
Definition cmd_fc : nat := 132.
Definition cmd_otg : nat := 138.

(** function_control_q, mode_update_q, otg_update_q, :149-169 *)
Definition upd_fc (s : ulp_st) (i : ulp_in) : fctl := (fst (fc i), if mode_update s && mode_complete s i then false else snd (fc i)).
Definition upd_mu (s : ulp_st) (i : ulp_in) : bool :=
  if mode_update s && mode_complete s i then false else if negb (fc_eqb (fc_q s) (fc i)) || snd (fc i) then true else mode_update s.
Definition upd_ou (s : ulp_st) (i : ulp_in) : bool :=
  if otg_update s && otg_complete s i then false else if negb (otg_q s =? otg i) then true else otg_update s.
(** ulpi_stp_q, :194-198 *)
Definition upd_stp (s : ulp_st) (i : ulp_in) : bool :=
  negb (turnaround s i) && negb (dir i) && nxt i && (is_l (state_q s) LReg || (is_l (state_q s) LData && negb (txv i))).
(** utmi_rxvalid_q, :199 *)
Definition upd_rxv (s : ulp_st) (i : ulp_in) : bool := negb (turnaround s i) && dir i && nxt i.
(** state_q, data_q, ulpi_data_q, mode_write_q, otg_write_q, :200-282 *)
Definition fsm (s : ulp_st) (i : ulp_in) : lst * nat * nat * bool * bool :=
  let keep st := (st, data_q s, udata_q s, mode_write s, otg_write s) in
  let idle := (LIdle, data_q s, 0, mode_write s, otg_write s) in
  if turnaround s i then if ((dir i && nxt i) || negb (dir i)) && is_l (state_q s) LReg then idle else keep (state_q s)
  else if dir i then keep (state_q s)
  else match state_q s with
       | LIdle =>
           if mode_update s then (LCmd, fc_num (fc_q s), cmd_fc, true, false)
           else if otg_update s then (LCmd, otg_q s, cmd_otg, false, true)
           else if txv i then (LData, data_q s, cmd_pid (txd i), mode_write s, otg_write s)
           else keep LIdle
       | LCmd => if nxt i then (LReg, data_q s, data_q s, mode_write s, otg_write s) else keep LCmd
       | LReg => if nxt i then (LIdle, data_q s, 0, false, false) else keep LReg
       | LData => if nxt i then (if txv i then (LData, data_q s, txd i, mode_write s, otg_write s) else idle) else keep LData
       end.
(** linestate, interrupt, rxactive, rxerror, :200-233 *)
Definition rx_st (s : ulp_st) (i : ulp_in) : nat * intr * bool * bool :=
  if turnaround s i then (linestate s, intr_q s, (if dir i then (if nxt i then true else rxactive s) else false), rxerror s)
  else if dir i then (if nxt i then (linestate s, intr_q s, true, rxerror s) else rx_cmd (di i) (intr_q s) (rxactive s) (rxerror s))
  else (linestate s, intr_q s, rxactive s, rxerror s).
(** utmi_data_q, :222-224 *)
Definition upd_rxd (s : ulp_st) (i : ulp_in) : nat := if negb (turnaround s i) && dir i && nxt i then di i else rxdata s.
(** hwImpl, :85-293; outputs :284-291, utmi.tx.rd :191, utmi.interrupt :146 *)
Definition ulp_step (s : ulp_st) (i : ulp_in) : ulp_st * ulp_out :=
  let '(st', dq', ud', mw', ow') := fsm s i in
  let '(ls', int', act', err') := rx_st s i in
  (mk_ul st' (upd_mu s i) (upd_fc s i) mw' (upd_ou s i) (otg i) ow' dq' ud' (upd_stp s i) (upd_rxv s i) err' act' ls' (upd_rxd s i) int' (dir i),
   mk_uo (udata_q s) (accept s i) (stp_q s) (accept s i) (rxdata s) (rxvalid s) (rxactive s) (rxerror s) (linestate s) (intr_q s)).
Definition ulp_init : ulp_st :=
  mk_ul LIdle false fc_default false false otg_default false 0 0 false false false false 0 0 (mk_intr false false false false false) true.
