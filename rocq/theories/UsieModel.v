(** Models of the adapters between UTMI and streams in hwtLib/peripheral/usb/usb2:
    sie_rx.py:52-104 [Usb2SieDeviceRx._Utmi_8b_rx_to_DataErrVldStrbLast] and sie_tx.py:73-84 [Usb2SieDeviceTx._Axi4Stream_to_Utmi_8b_tx].
    The parsers, deparsers and CRCs around them are not modelled. *)
From Verif Require Import Base.

Section Usie.
  Variable D : Type.

  (** * reception *)
  (** pins of Utmi_8b_rx *)
  Record ur_in := mk_uri { ui_active : bool; ui_valid : bool; ui_data : D; ui_error : bool }.
  (** an item of the register rx_tmp (sie_rx.py:53-71); data has no reset value and is set to None, which is [None] here *)
  Record ur_item := mk_uit { ut_data : option D; ut_error : bool; ut_valid : bool; ut_active : bool }.
  (** pins of rx_data_tmp *)
  Record ur_out := mk_uro { uo_vld : bool; uo_data : option D; uo_error : bool; uo_last : bool }.
  Record ur_st := mk_urs { u0 : ur_item; u1 : ur_item }.

  (** :76-87; an input without valid keeps the item *)
  Definition ur_load (t : ur_item) (i : ur_in) : ur_item :=
    if ui_active i then
      if ui_valid i then mk_uit (Some (ui_data i)) (ui_error i) true true
      else mk_uit (ut_data t) (ut_error t) (ut_valid t) true
    else mk_uit None false false false.
  (** :97-102 *)
  Definition ur_o (s : ur_st) : ur_out :=
    mk_uro ((ut_valid (u1 s) && ut_active (u0 s) && ut_valid (u0 s)) || (ut_valid (u1 s) && ut_active (u1 s) && negb (ut_active (u0 s))))
           (ut_data (u1 s)) (ut_error (u1 s)) (negb (ut_active (u0 s))).
  (** :89 *)
  Definition ur_step (s : ur_st) (i : ur_in) : ur_st * ur_out := (mk_urs (ur_load (u0 s) i) (u0 s), ur_o s).
  (** data and error have no reset value *)
  Definition ur_init (d d' : option D) (e e' : bool) : ur_st := mk_urs (mk_uit d e false false) (mk_uit d' e' false false).

  (** * transmission *)
  (** pins driven by the neighbours: the stream and tx.ready *)
  Record ux_in := mk_uxi { xi_valid : bool; xi_data : D; xi_last : bool; xi_rd : bool }.
  Record ux_out := mk_uxo { xo_ready : bool; xo_vld : bool; xo_data : D }.
  (** sie_tx.py:77-84, the state is last_delayed *)
  Definition ux_step (s : bool) (i : ux_in) : bool * ux_out :=
    (if s && xi_rd i then false
     else if xi_valid i && xi_last i && xi_rd i then true else s,
     mk_uxo (xi_rd i && negb s) (xi_valid i && negb s) (xi_data i)).
End Usie.
Arguments mk_uri {D}. Arguments ui_active {D}. Arguments ui_valid {D}. Arguments ui_data {D}. Arguments ui_error {D}.
Arguments mk_uit {D}. Arguments ut_data {D}. Arguments ut_error {D}. Arguments ut_valid {D}. Arguments ut_active {D}.
Arguments mk_uro {D}. Arguments uo_vld {D}. Arguments uo_data {D}. Arguments uo_error {D}. Arguments uo_last {D}.
Arguments mk_urs {D}. Arguments u0 {D}. Arguments u1 {D}.
Arguments ur_load {D}. Arguments ur_o {D}. Arguments ur_step {D}. Arguments ur_init {D}.
Arguments mk_uxi {D}. Arguments xi_valid {D}. Arguments xi_data {D}. Arguments xi_last {D}. Arguments xi_rd {D}.
Arguments mk_uxo {D}. Arguments xo_ready {D}. Arguments xo_vld {D}. Arguments xo_data {D}. Arguments ux_step {D}.
