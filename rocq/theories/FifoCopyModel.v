(** Models of hwtLib/mem/fifoCopy.py [FifoCopy] and hwtLib/amba/axis_comp/fifoCopy.py
    [Axi4SFifoCopy], [Axi4SRegCopy]. *)
From Verif Require Import Base FifoModel HsRegModel.

Section FifoCopy.
  Context {A : Type}.
  (** Parameter DEPTH, asserted > 1 (mem/fifoCopy.py:31-34) *)
  Variable DEPTH : nat.

  (** registers wr_ptr, rd_ptr_tmp, rd_ptr (mem/fifoCopy.py:58-62), memory (:56) and the clocked output
      dataOut.data (:123-128).  The memory has DEPTH + 1 cells, the pointers use DEPTH of them. *)
  Record fc_st := mk_fc { fc_wr : nat; fc_tmp : nat; fc_rd : nat; fc_mem : nat -> A; fc_dout : A }.
  Definition fc_init (m0 : nat -> A) (d0 : A) : fc_st := mk_fc 0 0 0 m0 d0.

  (** dataIn.en, dataIn.data, dataOut.en, dataOut_copy_frame.vld, dataOut_copy_frame.data *)
  Record fc_in := mk_fci { fi_wen : bool; fi_data : A; fi_ren : bool; fi_cvld : bool; fi_cdata : bool }.
  (** dataIn.wait, dataOut.wait, dataOut.data after the edge of this cycle *)
  Record fc_out := mk_fco { fo_wwait : bool; fo_rwait : bool; fo_data : A }.

  (** dataIn.wait, mem/fifoCopy.py:133 *)
  Definition fc_wwait (s : fc_st) : bool := ptr_inc DEPTH (fc_wr s) =? fc_rd s.
  (** dataOut.wait, mem/fifoCopy.py:134-138 *)
  Definition fc_rwait (s : fc_st) (copy : bool) : bool := if copy then false else fc_wr s =? fc_tmp s.

  (** One clock edge, mem/fifoCopy.py:66-138.  The pointer increments with the wrap at MAX_DEPTH (:77-87, :99-104)
      are the [ptr_inc] of FifoModel.v (the same statement). *)
  Definition fc_step (s : fc_st) (i : fc_in) : fc_st * fc_out :=
    let copy := fi_cvld i && fi_cdata i in
    let rd := fi_ren i && (negb (fc_wr s =? fc_tmp s) || copy) in                 (* :116-119 *)
    let wr := fi_wen i && negb (ptr_inc DEPTH (fc_wr s) =? fc_rd s) in           (* :130 *)
    let tmp' := if rd then (if copy then ptr_inc DEPTH (fc_rd s) else ptr_inc DEPTH (fc_tmp s)) else fc_tmp s in
    let rd' := if fi_cvld i && negb (fi_cdata i) then fc_tmp s else fc_rd s in    (* :89-91 *)
    let dout' := if rd then fc_mem s (if copy then fc_rd s else fc_tmp s) else fc_dout s in (* :120-128 *)
    (mk_fc (if wr then ptr_inc DEPTH (fc_wr s) else fc_wr s) tmp' rd'
           (if wr then upd (fc_mem s) (fc_wr s) (fi_data i) else fc_mem s) dout',
     mk_fco (fc_wwait s) (fc_rwait s copy) dout').
End FifoCopy.
Arguments fc_st : clear implicits. Arguments fc_in : clear implicits. Arguments fc_out : clear implicits.

Section AxisFifoCopy.
  Context {D ID : Type}.
  (** A word of the stream: last, id and everything else *)
  Record cword := mk_cw { cw_data : D; cw_id : ID; cw_last : bool }.
  (** Parameter DEPTH, asserted > 1 (axis_comp/fifoCopy.py:86-87); inner DEPTH - 1 (handshaked/fifo.py:64), which
      FifoCopy asserts to be > 1 *)
  Variable DEPTH : nat.

  (** inner fifo, registers out_vld (:113) and replace_id (:120-126, only if ID_WIDTH > 0) *)
  Record ac_st := mk_ac { ac_f : fc_st cword; ac_ovld : bool; ac_rvld : bool; ac_rval : ID }.
  Definition ac_init (m0 : nat -> cword) (d0 : cword) (r0 : ID) : ac_st := mk_ac (fc_init m0 d0) false false r0.

  (** dataIn.valid and word, dataOut.ready, dataOut_copy_frame, dataOut_replacement_id *)
  Record ac_in := mk_aci { ai_vld : bool; ai_word : cword; ai_rd : bool; ai_copy : bool; ai_repl : ID }.
  Record ac_out := mk_aco { ao_rd : bool; ao_vld : bool; ao_word : cword }.

  (** dout.id, axis_comp/fifoCopy.py:129-133 *)
  Definition ac_shown (s : ac_st) : cword :=
    let w := fc_dout (ac_f s) in
    mk_cw (cw_data w) (if ac_rvld s then ac_rval s else cw_id w) (cw_last w).

  (** One clock edge, axis_comp/fifoCopy.py:95-147 *)
  Definition ac_step (s : ac_st) (i : ac_in) : ac_st * ac_out :=
    let f := ac_f s in
    let wr_en := negb (fc_wwait (DEPTH - 1) f) in                                  (* :100-102 *)
    let last := cw_last (fc_dout f) in
    let cvld := ac_ovld s && last && ai_rd i in                                   (* :143 *)
    let wait := fc_rwait f (cvld && ai_copy i) in
    let fo_en := (ai_rd i || negb (ac_ovld s)) && negb wait in                    (* :139 *)
    let f' := fst (fc_step (DEPTH - 1) f (mk_fci (ai_vld i && wr_en) (ai_word i) fo_en cvld (ai_copy i))) in
    let upd_id := last && ai_rd i && ac_ovld s in                                 (* :134-137 *)
    (mk_ac f' (if ai_rd i || negb (ac_ovld s) then negb wait else ac_ovld s)      (* :140-142 *)
           (if upd_id then ai_copy i else ac_rvld s) (if upd_id then ai_repl i else ac_rval s),
     mk_aco wr_en (ac_ovld s) (ac_shown s)).

  (** Axi4SRegCopy, axis_comp/fifoCopy.py:36-67, with the Axi4SReg of LATENCY = 1, DELAY = 0 (the defaults): the
      register stage of HsRegModel.v *)
  Definition rc_step (s : stage cword) (i : ac_in) : stage cword * ac_out :=
    let copy_en := ai_copy i && occ s in                                          (* :41 *)
    let id := if ai_copy i then ai_repl i else cw_id (ai_word i) in               (* :45-49 *)
    let src := if copy_en then sdat s else ai_word i in                           (* :50-54 *)
    let w := mk_cw (cw_data src) id (cw_last src) in
    let vld := copy_en || ai_vld i in                                             (* :56 *)
    let ready := stage_rd s (ai_rd i) in
    (stage_next s vld w (ai_rd i),
     mk_aco (ready && negb copy_en) (occ s) (sdat s)).                            (* :57-60 *)
  (** reset state: no word *)
  Definition rc_init (d0 : cword) : stage cword := mk_stage KLat false d0.
End AxisFifoCopy.
Arguments cword : clear implicits. Arguments ac_st : clear implicits. Arguments ac_in : clear implicits.
Arguments ac_out : clear implicits.
