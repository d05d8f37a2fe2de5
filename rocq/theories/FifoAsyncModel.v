(** Model of hwtLib/mem/fifoAsync.py [FifoAsync], DEPTH = 2^AW (asserted at fifoAsync.py:33). *)
From Verif Require Import Base GrayModel.

Section FifoAsync.
  Context {A : Type}.
  Variable AW : nat.

  (** fifoAsync.py:82-131. Write clock domain: w_bin, w_gray, two synchronisation registers of r_gray
      (SignalCdcBuilder.add_out_reg called twice, fifoAsync.py:68-73), w_full, memory.
      Read clock domain: r_bin, r_gray, two synchronisation registers of w_gray, r_empty, r_reg. *)
  Record fa_st := mk_fa {
    a_wbin : N; a_wgray : N; a_r1 : N; a_r2 : N; a_wfull : bool; a_mem : nat -> A;
    a_rbin : N; a_rgray : N; a_w1 : N; a_w2 : N; a_rempty : bool; a_rreg : A }.

  Definition fa_init (m0 : nat -> A) (d0 : A) : fa_st :=
    mk_fa 0 0 0 0 false m0 0 0 0 0 true d0.

  (** Which clocks have a rising edge at this moment, and the inputs sampled by that edge.
      [ev_w] : dataIn.en, dataIn.data; [ev_r] : dataOut.en.
      When both clocks rise at once the first synchronisation register may catch the old or the new
      value of the gray register it samples; [ev_seenew_w] (resp. [ev_seenew_r]) is the choice of the register in
      the write (resp. read) domain.  Any mix of old and new bits is one of the two, because at most one bit of
      the sampled register changes (C21). *)
  Record fa_ev := mk_ev { ev_w : option (bool * A); ev_r : option bool; ev_seenew_w : bool; ev_seenew_r : bool }.
  (** dataIn.wait, dataOut.wait (before the edge), dataOut.data (after the edge) *)
  Record fa_out := mk_faout { ao_wwait : bool; ao_rwait : bool; ao_rdata : A }.

  (** [Concat(~g[AW + 1:AW - 1], g[AW - 1:])], fifoAsync.py:100-101 *)
  Definition full_code (g : N) : N :=
    (N.lxor 3 (N.shiftr g (N.of_nat AW - 1)) * 2 ^ (N.of_nat AW - 1) + g mod 2 ^ (N.of_nat AW - 1))%N.

  (** increment of an [AW+1] bit index register *)
  Definition bin_inc (b : N) : N := ((b + 1) mod 2 ^ (N.of_nat AW + 1))%N.
  (** bits [AW:0] of the index *)
  Definition mem_idx (b : N) : nat := N.to_nat (b mod 2 ^ N.of_nat AW).

  Definition fa_step (s : fa_st) (e : fa_ev) : fa_st * fa_out :=
    let w_en := match ev_w e with Some (en, _) => en && negb (a_wfull s) | None => false end in (* :104 *)
    let r_en := match ev_r e with Some en => en && negb (a_rempty s) | None => false end in (* :118 *)
    let wbin' := if w_en then bin_inc (a_wbin s) else a_wbin s in (* :105-107 *)
    let rbin' := if r_en then bin_inc (a_rbin s) else a_rbin s in (* :119-121 *)
    let wgray' := bin_to_gray wbin' in (* :74 *)
    let rgray' := bin_to_gray rbin' in
    let rreg' := if r_en then a_mem s (mem_idx (a_rbin s)) else a_rreg s in (* :123-130 *)
    (match ev_w e with
     | Some (_, d) =>
         let mem' := if w_en then upd (a_mem s) (mem_idx (a_wbin s)) d else a_mem s in (* :108-115 *)
         let r1' := match ev_r e with
                    | Some _ => if ev_seenew_w e then rgray' else a_rgray s
                    | None => a_rgray s end in
         match ev_r e with
         | Some _ =>
             mk_fa wbin' wgray' r1' (a_r1 s) (N.eqb wgray' (full_code (a_r2 s))) mem'
                   rbin' rgray' (if ev_seenew_r e then wgray' else a_wgray s) (a_w1 s)
                   (N.eqb rgray' (a_w2 s)) rreg'
         | None =>
             mk_fa wbin' wgray' r1' (a_r1 s) (N.eqb wgray' (full_code (a_r2 s))) mem'
                   (a_rbin s) (a_rgray s) (a_w1 s) (a_w2 s) (a_rempty s) (a_rreg s)
         end
     | None =>
         match ev_r e with
         | Some _ =>
             mk_fa (a_wbin s) (a_wgray s) (a_r1 s) (a_r2 s) (a_wfull s) (a_mem s)
                   rbin' rgray' (a_wgray s) (a_w1 s) (N.eqb rgray' (a_w2 s)) rreg'
         | None => s
         end
     end,
     mk_faout (a_wfull s) (a_rempty s) rreg').
End FifoAsync.
Arguments fa_st : clear implicits. Arguments fa_ev : clear implicits. Arguments fa_out : clear implicits.
