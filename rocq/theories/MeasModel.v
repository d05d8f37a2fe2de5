(** Model of hwtLib/amba/axis_comp/fifoMeasuring.py [Axi4S_fifoMeasuring]. *)
From Verif Require Import Base HsRegModel FifoModel.

Section Meas.
  Context {A : Type}.
  (** MAX_LEN, SIZES_BUFF_DEPTH, DATA_WIDTH // 8, USE_STRB *)
  Variables (MAX SD B : nat) (strb : bool).
  (** data, strb (byte 0 first), last *)
  Record mword := mk_mw { mw_d : A; mw_s : list bool; mw_l : bool }.
  (** DEPTH of dataBuff, fifoMeasuring.py:48 *)
  Definition me_dd : nat := (MAX + 1) * 2.
  (** width of wordCntr and length, fifoMeasuring.py:76-78, 91 *)
  Definition me_cw : nat := log2ceil MAX + 1.
  (** rem, fifoMeasuring.py:95-104: the highest set bit of strb has the priority; [k] is the index of the head of the list *)
  Fixpoint top (k : nat) (l : list bool) : option nat :=
    match l with
    | [] => None
    | b :: l' => match top (S k) l' with Some n => Some n | None => if b then Some k else None end
    end.
  Definition me_rem (s : list bool) : nat := match top 0 s with Some i => if i =? B - 1 then 0 else i + 1 | None => 0 end.
  Definition full (s : list bool) : bool := forallb (fun b => b) s.

  (** the register of Axi4SBuilder.buff() (LATENCY=1, DELAY=0), wordCntr, sizesBuff, dataBuff (Axi4SFifo is HandshakedFifo), errorAlignment_reg *)
  Record me_st := mk_mes { ms_r : stage mword; ms_c : nat; ms_s : hsf_st nat; ms_d : hsf_st mword; ms_e : bool }.
  (** dataIn: valid and word; sizes.rd; dataOut.ready *)
  Record me_i := mk_mei { mi_v : bool; mi_w : mword; mi_srd : bool; mi_rd : bool }.
  (** dataIn.ready; sizes; dataOut; errorAlignment *)
  Record me_o := mk_meo { mo_rd : bool; mo_s : option nat; mo_w : option mword; mo_err : bool }.
  (** hwImpl, fifoMeasuring.py:68-128; ready of a HandshakedFifo depends only on its state (handshaked/fifo.py:101-102) *)
  Definition meas_step (s : me_st) (i : me_i) : me_st * me_o :=
    let w := sdat (ms_r s) in let v := occ (ms_r s) in
    let srd := negb (f_wwait (hf (ms_s s))) in let drd := negb (f_wwait (hf (ms_d s))) in
    let last := mw_l w || (ms_c s =? MAX) in                                       (* :80-81 *)
    let ack := v && srd && drd in                                                  (* :82 *)
    let c' := if ack then if last then 0 else winc me_cw (ms_c s) else ms_c s in
    let len := if strb && (last && negb (full (mw_s w))) then ms_c s else winc me_cw (ms_c s) in   (* :91-120 *)
    let rem := if strb then me_rem (mw_s w) else 0 in
    let '(sb, so) := hsf_step SD (ms_s s) (mk_hin (v && drd && last) (len * 2 ^ log2ceil B + rem) (mi_srd i)) in   (* :122, 127-130 *)
    let '(db, do) := hsf_step me_dd (ms_d s) (mk_hin (v && srd) (mk_mw (mw_d w) (mw_s w) last) (mi_rd i)) in   (* :124-125 *)
    let e' := ms_e s || (v && negb (full (mw_s w)) && negb (mw_l w)) in            (* :105-110 *)
    let ord := srd && drd in
    (mk_mes (stage_next (ms_r s) (mi_v i) (mi_w i) ord) c' sb db e',
     mk_meo (stage_rd (ms_r s) ord) (if h_vld so then Some (h_data so) else None) (if h_vld do then Some (h_data do) else None) (ms_e s)).
  Definition meas_init (w0 : mword) (ms : nat -> nat) (s0 : nat) (md : nat -> mword) : me_st :=
    mk_mes (mk_stage KLat false w0) 0 (hsf_init SD [] ms s0) (hsf_init me_dd [] md w0) false.
End Meas.
Arguments mword : clear implicits.
Arguments me_st : clear implicits.
Arguments me_i : clear implicits.
Arguments me_o : clear implicits.
