(** Model of hwtLib/xilinx/ipif/buff.py [IpifBuff]. *)
From Verif Require Import Base.

Section Ipb.
  (** [P]: bus2ip_rnw, bus2ip_addr, bus2ip_data and bus2ip_be together, [U]: ip2bus_data and ip2bus_error *)
  Context {P U : Type}.
  (** connectRegistered, buff.py:40-44: a register without reset for each signal but bus2ip_cs; cs, :64 *)
  Record ipb := mk_ipb { b_down : P; b_up : U; b_rdack : bool; b_wrack : bool; b_cs : bool }.
  (** pins of s driven by the master (bus2ip_cs and the rest), pins of m driven by the slave *)
  Record ipb_in := mk_bi { bi_cs : bool; bi_p : P; bi_u : U; bi_rdack : bool; bi_wrack : bool }.
  (** pins of m, pins of s *)
  Record ipb_out := mk_bo { bo_cs : bool; bo_p : P; bo_u : U; bo_rdack : bool; bo_wrack : bool }.
  Definition ipb_step (s : ipb) (i : ipb_in) : ipb * ipb_out :=
    let ack := b_rdack s || b_wrack s in                                    (* :68-74 *)
    (mk_ipb (bi_p i) (bi_u i) (bi_rdack i) (bi_wrack i) (if ack then false else bi_cs i),
     mk_bo (if ack then false else b_cs s) (b_down s) (b_up s) (b_rdack s) (b_wrack s)).
  (** after reset; only cs has a reset value *)
  Definition ipb_init (p : P) (u : U) (r w : bool) : ipb := mk_ipb p u r w false.
End Ipb.
Arguments ipb : clear implicits. Arguments ipb_in : clear implicits. Arguments ipb_out : clear implicits.
