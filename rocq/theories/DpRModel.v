(** Model of hwtLib/amba/datapump/r.py [Axi_rDatapump] for ALIGNAS = DATA_WIDTH (isAlwaysAligned): without the shift logic. *)
From Verif Require Import Base FifoModel DpModel.

Section R.
  Context {D : Type}.
  Variables (c : dpcfg) (xl : nat).

  (** the address handler, the FIFO sizeRmFifo of (rem, propagateLast) (r.py:90-93, storeTransInfo r.py:95-108), errorRead, errorAlignment *)
  Record rp_st := mk_rp { p_ah : ah_st; p_f : hsf_st (nat * bool); p_err : bool; p_aerr : bool }.
  (** driver.req; axi.ar.ready; axi.r valid, data, last, resp is OKAY; driver.r.ready *)
  Record rp_in := mk_rpi { pi_vld : bool; pi_req : dreq; pi_arrdy : bool; pi_v : bool; pi_d : D; pi_last : bool; pi_okay : bool; pi_rdy : bool }.
  (** driver.req.rd; axi.ar valid, addr, len; axi.r.ready; driver.r valid, data, strb (bytes, LSB first), last; errorRead, errorAlignment *)
  Record rp_out := mk_rpo { po_rd : bool; po_arv : bool; po_addr : nat; po_len : nat; po_rrdy : bool;
    po_v : bool; po_d : D; po_strb : list bool; po_last : bool; po_err : bool; po_aerr : bool }.
  Definition rp_init (a0 l0 : nat) (m0 : nat -> nat * bool) (d0 : nat * bool) : rp_st :=
    mk_rp (ah_init a0 l0) (hsf_init (OVERLAP c) [] m0 d0) false false.

  (** remSizeToStrb for isAlwaysAligned, r.py:110-135 *)
  Definition rem_strb (rem : nat) : list bool := map (fun k => (rem =? 0) || (k <? rem)) (seq 0 (WB c)).

  (** hwImpl, r.py:257-278, with addrHandler (DpModel) and dataHandler, r.py:178-204 *)
  Definition rp_step (s : rp_st) (i : rp_in) : rp_st * rp_out :=
    let f := p_f s in
    let err := p_err s || p_aerr s in
    let ai := mk_ahi (pi_vld i) (pi_req i) (pi_arrdy i) (negb (f_wwait (hf f))) err in
    let '(ah', ao) := ah_step c xl (p_ah s) ai in
    let '(rem, plast) := dreg (hf f) in
    let in_last := if LW c =? 0 then true else pi_last i in
    let last := if use_split c then plast && in_last else in_last in
    (mk_rp ah'
           (fst (hsf_step (OVERLAP c) f (mk_hin (ao_ivld ao) (if ao_last ao then q_rem (pi_req i) else 0, ao_last ao) (pi_v i && pi_rdy i && in_last))))
           (p_err s || (pi_v i && negb (pi_okay i)))
           (if AL c =? 1 then false else p_aerr s || (pi_vld i && negb (q_addr (pi_req i) mod 2 ^ log2ceil (AL c) =? 0))),
     mk_rpo (ao_rd ao) (ao_vld ao) (ao_addr ao) (ao_len ao)
            (ovld f && pi_rdy i)
            (pi_v i && ovld f && negb err) (pi_d i)
            (if pi_v i && last then rem_strb rem else repeat true (WB c)) last
            (p_err s) (p_aerr s)).
End R.
Arguments rp_in : clear implicits. Arguments rp_out : clear implicits.
