(** Model of the logic built by hwtLib/abstract/hwExceptionCtx.py:100-147 [HwExceptionCtx.hw_raise] for one exception.
    Arguments of the exception are wires and are not modelled, as well as the construction of interfaces ([hw_catch], [propagate]). *)
From Verif Require Import Base.

(** [xn_raise]: the statements returned by hw_raise are active (raise.vld is 1, 0 otherwise, :137, :145-147); [xn_rd]: ready of the handler *)
Record hx_in := mk_hxi { xn_raise : bool; xn_rd : bool }.
(** raise.vld, pending_flag, raising_flag *)
Record hx_out := mk_hxo { xr_vld : bool; xr_pending : bool; xr_raising : bool }.
(** the state is err_pending, :128-136 *)
Definition hx_step (s : bool) (i : hx_in) : bool * hx_out :=
  (if s then negb (xn_rd i) else xn_raise i && negb (xn_rd i), mk_hxo (xn_raise i) s (xn_raise i)).
