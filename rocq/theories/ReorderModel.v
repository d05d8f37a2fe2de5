(** Model of hwtLib/amba/axi_comp/oooOp/reorder_buffer.py [ReorderBuffer]: an input register (HsBuilder.buff(1), a HandshakedReg of
    LATENCY 1), the occupancy bits, a RAM with a write port and a read port behind RamAsAddrDataRdVld. *)
From Verif Require Import Base HsRegModel.

Section Reorder.
  Context {A : Type}.
  (** dataIn.vld, id, data; dataOut.rd *)
  Record rb_in := mk_rbi { bi_vld : bool; bi_id : nat; bi_data : A; bi_rd : bool }.
  (** dataIn.rd; dataOut.vld, data *)
  Record rb_out := mk_rbo { bo_rd : bool; bo_vld : bool; bo_data : A }.
  (** dataIn_reg, item_occ, out_cntr, the RAM and its output register, readDataPending, readData, readDataOverflow *)
  Record rb_st := mk_rb { rb_reg : stage (nat * A); rb_occ : nat -> bool; rb_cnt : nat; rb_mem : nat -> A; rb_dout : A;
                          rb_pend : bool; rb_vld : bool; rb_data : A; rb_ovld : bool; rb_odata : A }.
  Definition rb_init (r0 : nat * A) (m : nat -> A) (a b c : A) : rb_st :=
    mk_rb (mk_stage KLat false r0) (fun _ => false) 0 m a false false b false c.

  (** reorder_buffer.py:100-151, [w] = ID_WIDTH; read path: ramAsAddrDataRdVld.py:69-103 and :121-126 with a read-only RAM port
      (ram.py:133-140), write path: :129-136 (w.rd is 1) *)
  Definition rb_step (w : nat) (s : rb_st) (i : rb_in) : rb_st * rb_out :=
    let '(id, d) := sdat (rb_reg s) in
    let cond := negb (rb_occ s id) in                                         (* extraConds, :118 *)
    let wr := occ (rb_reg s) && cond in                                       (* sn_in.ack(); w.vld *)
    let rdy := bi_rd i in
    let rEn := (negb (rb_ovld s) || rdy) && (negb (rb_vld s) || rdy) in
    let full := rb_occ s (rb_cnt s) in                                        (* :135 *)
    let issue := full && rEn in                                               (* sn_addr.ack() *)
    (* apply_set_and_clear, :97 *)
    let occ' := fun x => (rb_occ s x && negb (issue && (x =? rb_cnt s))) || (wr && (x =? id)) in
    let mem' := if wr then upd (rb_mem s) id d else rb_mem s in
    let dout' := if issue then rb_mem s (rb_cnt s) else rb_dout s in
    let direct := negb (rb_vld s) || rdy in
    let '(vld', data', ovld', odata') :=
      if rb_pend s then
        if direct then (true, rb_dout s, false, rb_odata s) else (rb_vld s, rb_data s, true, rb_dout s)
      else
        if rdy then (rb_ovld s, rb_odata s, false, rb_odata s) else (rb_vld s, rb_data s, rb_ovld s, rb_odata s) in
    (mk_rb (stage_next (rb_reg s) (bi_vld i) (bi_id i, bi_data i) cond) occ' (if issue then winc w (rb_cnt s) else rb_cnt s)
           mem' dout' issue vld' data' ovld' odata',
     mk_rbo (stage_rd (rb_reg s) cond) (rb_vld s) (rb_data s)).
End Reorder.
Arguments rb_in : clear implicits. Arguments rb_out : clear implicits. Arguments rb_st : clear implicits.
