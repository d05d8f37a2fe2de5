(** Model of hwtLib/handshaked/cdc.py [HandshakeFSM], [HandshakedCdc] and hwtLib/clocking/cdc.py [Cdc], [CdcPulseGen];
    of hwtLib/clocking/vldSynced_cdc.py [VldSyncedCdc]. *)
From Verif Require Import Base.

Section Cdc.
  Context {A : Type}.

  (** Registers, handshaked/cdc.py:125-177.  dataIn clock: rd of tx_fsm (:32), din_en, din_data, in_reg of out_en_pulse_gen,
      the three out_regs of in_ack_pulse_gen (clocking/cdc.py:144-150, 166-188).  dataOut clock: rd of rx_fsm, dout_ack, dout_data,
      dout_vld_delayed, in_reg of in_ack_pulse_gen, the three out_regs of out_en_pulse_gen. *)
  Record hc_st := mk_hc {
    tx_rd : bool; din_en : bool; din_data : A; og_in : bool; ig0 : bool; ig1 : bool; ig2 : bool;
    rx_rd : bool; dout_ack : bool; dout_data : A; vld_del : bool; ig_in : bool; og0 : bool; og1 : bool; og2 : bool }.
  (** def_val of the registers, the data registers have none (DATA_RESET_VAL=None) *)
  Definition hc_init (a b : A) : hc_st :=
    mk_hc true false a false false false false true false b false false false false false.

  (** an edge of dataIn_clk with dataIn.vld, dataIn.data and/or an edge of dataOut_clk with dataOut.rd; if both clocks rise
      at once the registers which sample the other domain may see the old or the new value *)
  Record hc_ev := mk_hev { he_in : option (bool * A); he_out : option bool; he_new_in : bool; he_new_out : bool }.
  (** dataIn.rd, dataOut.vld, dataOut.data before the edge *)
  Record hc_out := mk_ho { ho_rd : bool; ho_vld : bool; ho_data : A }.

  (** HandshakeFSM.hwImpl, cdc.py:32-39: next value of rd *)
  Definition hs_fsm (rd vld ack : bool) : bool := if rd then negb vld else ack.

  (** registers of the dataIn domain after an edge of dataIn_clk; [x] is the value sampled from in_reg of in_ack_pulse_gen *)
  Definition hc_in (s : hc_st) (vld : bool) (d : A) (x : bool) : hc_st :=
    let nxt := vld && tx_rd s in (* :149 *)
    mk_hc (hs_fsm (tx_rd s) vld (xorb (ig1 s) (ig2 s))) (* :135-137, 172-177 *)
          (xorb (din_en s) nxt) (if nxt then d else din_data s) (* :150-153 *)
          (din_en s) x (ig0 s) (ig1 s)
          (rx_rd s) (dout_ack s) (dout_data s) (vld_del s) (ig_in s) (og0 s) (og1 s) (og2 s).
  (** registers of the dataOut domain after an edge of dataOut_clk; [x] is sampled from in_reg of out_en_pulse_gen, [d] from din_data *)
  Definition hc_outw (s : hc_st) (rd : bool) (x : bool) (d : A) : hc_st :=
    let load := negb (rx_rd s) && rd in (* :156 *)
    mk_hc (tx_rd s) (din_en s) (din_data s) (og_in s) (ig0 s) (ig1 s) (ig2 s)
          (hs_fsm (rx_rd s) (xorb (og1 s) (og2 s)) rd) (* :141-146 *)
          (xorb (dout_ack s) load) (if load then d else dout_data s) (* :157-159, 171 *)
          (negb (rx_rd s)) (* :166-168 *)
          (dout_ack s) x (og0 s) (og1 s).

  Definition hc_step (s : hc_st) (e : hc_ev) : hc_st * hc_out :=
    (match he_in e, he_out e with
     | None, None => s
     | Some (v, d), None => hc_in s v d (ig_in s)
     | None, Some r => hc_outw s r (og_in s) (din_data s)
     | Some (v, d), Some r =>
         let si := hc_in s v d (ig_in s) in
         let so := hc_outw s r (og_in s) (din_data s) in
         let x_in := if he_new_in e then ig_in so else ig_in s in
         let x_out := if he_new_out e then og_in si else og_in s in
         let x_data := if he_new_out e then din_data si else din_data s in
         let i := hc_in s v d x_in in
         let o := hc_outw s r x_out x_data in
         mk_hc (tx_rd i) (din_en i) (din_data i) (og_in i) (ig0 i) (ig1 i) (ig2 i)
               (rx_rd o) (dout_ack o) (dout_data o) (vld_del o) (ig_in o) (og0 o) (og1 o) (og2 o)
     end,
     mk_ho (tx_rd s) (vld_del s) (dout_data s)).
End Cdc.
Arguments hc_st : clear implicits. Arguments hc_ev : clear implicits. Arguments hc_out : clear implicits.
