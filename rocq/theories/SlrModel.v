(** Model of hwtLib/xilinx/slr_crossing.py [HsSlrCrossing] with [SlrCrossingSrc], [SlrCrossingDst] and their shift registers
    hwtLib/xilinx/primitive/lutAsShiftReg.py [LutAsShiftReg] (ITEMS = DEPTH = 4, slr_crossing.py:68). *)
From Verif Require Import Base.

Section Slr.
  Context {A : Type}.
  (** the shift registers of vld and of data as one: item [i] is the word at d_out_addr = i; lutAsShiftReg.py:44-51 *)
  Record shreg := mk_sh { q0 : bool * A; q1 : bool * A; q2 : bool * A; q3 : bool * A }.
  Definition sh_in (ce : bool) (x : bool * A) (m : shreg) : shreg := if ce then mk_sh x (q0 m) (q1 m) (q2 m) else m.
  Definition sh_out (addr : nat) (m : shreg) : bool * A := match addr with 0 => q0 m | 1 => q1 m | 2 => q2 m | _ => q3 m end.
  (** registers of src: reg.data, reg.rd, reg.vld; of dst: out_valid, data, in_ready, cross_ce_inreg, cross_ce, sh_push; the memories *)
  Record slr := mk_slr { g_data : A; g_rd : bool; g_vld : bool; x_vld : bool; x_data : A; x_rdy : bool; x_cei : bool; x_ce : bool;
    x_addr : nat; x_sh : shreg }.
  (** s.vld, s.data, m.rd -> s.rd, m.vld, m.data *)
  Record slr_in := mk_xi { xi_vld : bool; xi_data : A; xi_rd : bool }.
  Record slr_out := mk_xo { xo_rd : bool; xo_vld : bool; xo_data : A }.
  Definition out_ce (s : slr) (m_rd : bool) : bool := m_rd || negb (x_vld s).              (* :90 *)
  Definition slr_step (s : slr) (i : slr_in) : slr * slr_out :=
    let ce := out_ce s (xi_rd i) in
    let addr' := if negb ce && x_ce s then winc 2 (x_addr s)                              (* :100-105 *)
                 else if ce && negb (x_ce s) then wdec 2 (x_addr s) else x_addr s in
    let w := sh_out (x_addr s) (x_sh s) in
    (mk_slr (xi_data i) (x_rdy s) (xi_vld i)                                              (* :48-54: m.rd of src is in_ready *)
            (if ce then fst w else x_vld s) (if ce then snd w else x_data s)              (* :119-122 *)
            ce (x_rdy s) (x_cei s) addr'                                                  (* :91-98 *)
            (sh_in (x_ce s) (g_vld s, g_data s) (x_sh s)),                                (* :107-115 *)
     mk_xo (g_rd s) (x_vld s) (x_data s)).
  (** After reset. The memories have no reset, but with the registers at their reset values each clock edge shifts a word with
      vld = 0 in (reset of two clock edges, or one if registers power up with their reset values); the rest is arbitrary. *)
  Definition slr_init (a b c : A) (m1 m2 m3 : bool * A) : slr :=
    mk_slr a false false false b true true true 0 (mk_sh (false, c) m1 m2 m3).
End Slr.
Arguments slr : clear implicits. Arguments slr_in : clear implicits. Arguments slr_out : clear implicits. Arguments shreg : clear implicits.
