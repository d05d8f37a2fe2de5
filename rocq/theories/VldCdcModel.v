(** Model of hwtLib/clocking/vldSynced_cdc.py [VldSyncedCdc] with the registers of hwtLib/clocking/cdc.py [SignalCdcBuilder].
    Each event is a rising edge of one of the clocks; resets and metastability are not modelled. *)
From Verif Require Import Base.

Section VldCdc.
  Context {A : Type}.
  (** registers: vld in_reg0, out_reg0, out_reg1, out_reg2 (vldSynced_cdc.py:83-88), data in_reg0, out_reg0
      (vldSynced_cdc.py:92-97; cdc.py:69-94) *)
  Record vs_st := mk_vs { vs_vin : bool; vs_v0 : bool; vs_v1 : bool; vs_v2 : bool; vs_din : A; vs_d0 : A }.
  (** an edge of dataIn_clk with dataIn.vld and dataIn.data, or an edge of dataOut_clk *)
  Inductive vs_ev := VIn (vld : bool) (d : A) | VOut.
  (** the control registers start at 0, the data registers have no reset value (DATA_RESET_VAL=None) *)
  Definition vs_init (a b : A) : vs_st := mk_vs false false false false a b.
  (** vldSynced_cdc.py:75-99; the output is what a consumer samples at the edge: dataOut.vld and dataOut.data at edges of
      dataOut_clk, None at edges of the other clock *)
  Definition vs_step (s : vs_st) (e : vs_ev) : vs_st * option (bool * A) :=
    match e with
    | VIn v d => (mk_vs v (vs_v0 s) (vs_v1 s) (vs_v2 s) d (vs_d0 s), None)
    | VOut => (mk_vs (vs_vin s) (vs_vin s) (vs_v0 s) (vs_v1 s) (vs_din s) (if vs_v1 s then vs_din s else vs_d0 s),
               Some (vs_v2 s, vs_d0 s))
    end.
End VldCdc.
Arguments vs_st : clear implicits. Arguments vs_ev : clear implicits.
