(** Model of hwtLib/handshaked/resizer.py [HsResizer].  A narrow word is an [A], a wide word the
    list of its parts, least significant part first (one data signal; several data signals are
    resized in parallel by the same control logic, resizer.py:79-89, 112-117). *)
From Verif Require Import Base HsRegModel.

Section Resizer.
  Context {A : Type}.

  (** _upscale, _upscaleDataPassLogic, resizer.py:60-92: inputRegs_cntr and the registers *)
  Record up_st := mk_up { u_cnt : nat; u_regs : nat -> A }.
  Record up_in := mk_uin { ui_vld : bool; ui_data : A; ui_rd : bool }.
  Record up_out := mk_uout { uo_rd : bool; uo_vld : bool; uo_data : list A }.

  Definition up_init (r0 : nat -> A) : up_st := mk_up 0 r0.

  Definition up_step (factor : nat) (s : up_st) (i : up_in) : up_st * up_out :=
    let w := log2ceil (factor + 1) in
    let last := u_cnt s =? factor - 1 in
    let cnt' := if last then (if ui_vld i && ui_rd i then 0 else u_cnt s)
                else if ui_vld i then winc w (u_cnt s) else u_cnt s in
    (* resizer.py:82-86, registers 0 .. factor-2 *)
    let regs' := if ui_vld i && (u_cnt s <? factor - 1) then upd (u_regs s) (u_cnt s) (ui_data i)
                 else u_regs s in
    (mk_up cnt' regs',
     mk_uout (negb (u_cnt s =? factor) || ui_rd i)
             (last && ui_vld i)
             (map (u_regs s) (seq 0 (factor - 1)) ++ [ui_data i])).

  (** _downscale, resizer.py:94-131: inReg is a HandshakedReg with LATENCY=1.  [x] is the value
      of dataOut.data for a counter value without a case. *)
  Record dn_st := mk_dn { d_cnt : nat; d_reg : stage (list A) }.
  Record dn_in := mk_din { di_vld : bool; di_data : list A; di_rd : bool }.
  Record dn_out := mk_dout { do_rd : bool; do_vld : bool; do_data : A }.

  Definition dn_init (d0 : list A) : dn_st := mk_dn 0 (mk_stage KLat false d0).

  Definition dn_step (x : A) (factor : nat) (s : dn_st) (i : dn_in) : dn_st * dn_out :=
    let w := log2ceil (factor + 1) in
    let last := d_cnt s =? factor - 1 in
    let reg_rd := last && di_rd i in
    let cnt' := if occ (d_reg s) && di_rd i
                then (if last then 0 else winc w (d_cnt s)) else d_cnt s in
    (mk_dn cnt' (stage_next (d_reg s) (di_vld i) (di_data i) reg_rd),
     mk_dout (stage_rd (d_reg s) reg_rd) (occ (d_reg s)) (nth (d_cnt s) (sdat (d_reg s)) x)).
End Resizer.
Arguments up_st : clear implicits. Arguments up_in : clear implicits. Arguments up_out : clear implicits.
Arguments dn_st : clear implicits. Arguments dn_in : clear implicits. Arguments dn_out : clear implicits.
