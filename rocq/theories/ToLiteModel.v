(** Model of hwtLib/amba/axi_comp/to_axiLite.py [Axi_to_AxiLite]: one direction (ar and r, or aw and b) between the buffers in_reg and
    out_reg, which are AxiBuff components with registers (HandshakedReg, see C02). The w channel is wires (to_axiLite.py:126-134).
    P is the type of the fields of a response (data and resp). Addresses are numbers below 2^ADDR_WIDTH. *)
From Coq Require Export NArith.
From Verif Require Import Base FifoModel.

Section ToLite.
  Context {P : Type}.
  (** parameters: ADDR_WIDTH, LEN_WIDTH, addr_step = DATA_WIDTH // 8 (to_axiLite.py:98), MAX_TRANS_OVERLAP;
      [lastonly] is the argument propagete_only_on_last *)
  Variables (AW LW : nat) (STEP : N) (DEPTH : nat) (lastonly : bool).

  (** len_rem, len_rem_vld, actual_addr (to_axiLite.py:94-99), the FIFO of requests with (id, len), rem, id_tmp, rem_vld
      (to_axiLite.py:142-145) *)
  Record tl_st := mk_tl { l_rem : nat; l_vld : bool; l_addr : N; l_fifo : hsf_st (nat * nat);
                          r_rem : nat; r_id : nat; r_vld : bool }.
  (** addr_ch_in (valid, id, addr, len), addr_ch_out.ready, inp (valid, fields), outp.ready *)
  Record tl_in := mk_tli { ai_vld : bool; ai_id : nat; ai_addr : N; ai_len : nat; ao_rd : bool;
                           ri_vld : bool; ri_data : P; ro_rd : bool }.
  (** addr_ch_in.ready, addr_ch_out (valid, addr), inp.ready, outp (valid, id, last, fields) *)
  Record tl_out := mk_tlo { ai_rd : bool; ao_vld : bool; ao_addr : N; ri_rd : bool;
                            ro_vld : bool; ro_id : nat; ro_last : bool; ro_data : P }.

  (** registers without reset value are arbitrary *)
  Definition tl_init (m0 : nat -> nat * nat) (d0 : nat * nat) (a : N) (x y : nat) : tl_st :=
    mk_tl 0 false a (hsf_init DEPTH [] m0 d0) x y false.

  (** to_axiLite.py:84-124 [gen_addr_logic] and to_axiLite.py:136-189 [gen_b_or_r_logic]. StreamNode.sync: a master is ready if the
      slaves are ready and its own extraCond holds, a slave is valid if the masters are valid and its own extraCond holds. *)
  Definition tl_step (s : tl_st) (i : tl_in) : tl_st * tl_out :=
    let frd := negb (f_wwait (hf (l_fifo s))) in                             (* req_fifo_inp.rd *)
    let oaddr := if l_vld s then l_addr s else ai_addr i in
    let next := ((oaddr + STEP) mod 2 ^ N.of_nat AW)%N in
    let fvld := negb (l_vld s) && ai_vld i && ao_rd i in                     (* :121 *)
    let fo_vld := ovld (l_fifo s) in
    let '(fid, flen) := dreg (hf (l_fifo s)) in
    let beat := ri_vld i && ro_rd i in
    let f_rd := if r_vld s then beat && (r_rem s =? 0) else true in          (* :158, :177 *)
    let f' := fst (hsf_step DEPTH (l_fifo s) (mk_hin fvld (ai_id i, ai_len i) f_rd)) in
    let '(rem', vld', addr') :=
      if l_vld s then
        if ao_rd i then (wdec LW (l_rem s), negb (l_rem s =? 0), next) else (l_rem s, true, l_addr s)
      else (wdec LW (ai_len i), ai_vld i && negb (ai_len i =? 0) && ao_rd i && frd, next) in
    let '(rrem', rid', rvld') :=
      if r_vld s then
        if beat then
          if negb (r_rem s =? 0) then (r_rem s - 1, r_id s, true)
          else if fo_vld then (flen, fid, true) else (r_rem s, r_id s, false)
        else (r_rem s, r_id s, true)
      else (flen, fid, fo_vld) in
    (mk_tl rem' vld' addr' f' rrem' rid' rvld',
     mk_tlo (negb (l_vld s) && (ao_rd i && frd))
            (if l_vld s then true else ai_vld i && frd) oaddr
            (ro_rd i && r_vld s)
            (ri_vld i && (if lastonly then r_vld s && (r_rem s =? 0) else r_vld s))
            (r_id s) ((r_rem s =? 0) && r_vld s) (ri_data i)).
End ToLite.
Arguments tl_in : clear implicits. Arguments tl_out : clear implicits.
