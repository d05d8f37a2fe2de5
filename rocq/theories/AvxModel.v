(** Model of hwtLib/avalon/mmToAxi.py [AvalonMm_to_Axi4]. *)
From Verif Require Import Base HsRegModel AmbModel.

Section Avx.
  (** address, data, byteEnable *)
  Context {AD D M : Type}.
  (** MAX_BURST > 1 (mmToAxi.py:61) and the width log2ceil(MAX_BURST) of burstCount (mm.py:62); elaboration fails if it is wider than len (:53) *)
  Variable BURST : bool.
  Variable CW : nat.
  (** address, burstCount, writeData, byteEnable of a request *)
  Definition pay : Type := AD * nat * D * M.
  (** avmm_buff: AvalonMmBuff with both depths 1 (:34-40), w_last_cntr, w_last_cntr_vld (:62-63); without bursts the last two stay unused *)
  Record avx_st := mk_ax { bf : amb_st pay D nat; lcnt : nat; lvld : bool }.
  (** s: request; m: ar.ready, aw.ready, w.ready, r.valid, r.data, r.resp, b.valid, b.resp *)
  Record avx_in := mk_xi { x_rq : rq pay; x_ar : bool; x_aw : bool; x_w : bool; x_rv : bool; x_rd : D; x_rresp : nat; x_bv : bool; x_bresp : nat }.
  (** s.waitRequest, readDataValid, readData, writeResponseValid, response; m: ar (valid, address, len), aw (the same address and len), w, r.ready, b.ready *)
  Record avx_out := mk_xo { y_wait : bool; y_rv : bool; y_rd : D; y_bv : bool; y_resp : nat; y_arv : bool; y_awv : bool; y_addr : AD; y_len : nat;
    y_wv : bool; y_wd : D; y_ws : M; y_wl : bool; y_rr : bool; y_br : bool }.
  (** the request on avmm: the register of avmm_buff, read and write only if it is valid (mm_buff.py:105-108) *)
  Definition held (b : buf (rq pay)) : bool * rq pay :=
    match b with BReg s => (occ s, sdat s) | BFifo s => (FifoModel.ovld s, FifoModel.dreg (FifoModel.hf s)) end.
  (** Switch(axi.b.resp), :121-132; amba/constants.py:90-93, avalon/mm.py:16-19 *)
  Definition resp_map (r : nat) : nat := match r with 0 => 0 | 1 => 0 | 2 => 2 | _ => 3 end.

  Definition avx_step (s : avx_st) (i : avx_in) : avx_st * avx_out :=
    let '(v, (rd0, wr0, (a, n, d, m))) := held (ad (bf s)) in
    let rd := rd0 && v in let wr := wr0 && v in
    let lv := BURST && lvld s in
    (* rd(s) of the StreamNode: ready or skip, streamNode.py:275-297; skipWhen :74-78 and :105-109 *)
    let ar_r := x_ar i || negb rd in
    let aw_r := x_aw i || (negb wr || lv) in
    let w_r := x_w i || negb wr in
    (* ackForMaster, ackForSlave; extraConds :69-73 and :100-104 *)
    let ready := ar_r && aw_r && w_r in
    let arv := (rd || wr) && aw_r && w_r && rd && negb (negb rd) in
    let awv := (rd || wr) && ar_r && w_r && (wr && x_w i && negb lv) && negb (negb wr || lv) in
    let wv := (rd || wr) && ar_r && aw_r && (if BURST then wr && ((x_aw i && negb lv) || lv) else wr && x_w i) && negb (negb wr) in
    let '(bf', bo) := amb_step 1 (bf s) (mk_ai (x_rq i) (negb ready) (x_rv i) (x_rd i) (x_bv i) (resp_map (x_bresp i))) in
    (* :81-90 *)
    let c1 := wr && x_aw i && x_w i && negb lv in
    let c2 := wr && x_w i && (x_aw i || lv) in
    let '(c', v') := if c1 then (wrap CW (n + 2 ^ CW - 2), 1 <? n) else if c2 then (if lcnt s =? 0 then (lcnt s, false) else (wdec CW (lcnt s), lvld s)) else (lcnt s, lvld s) in
    (mk_ax bf' (if BURST then c' else lcnt s) (if BURST then v' else lvld s),
     mk_xo (b_wait bo) (b_rv bo) (b_rd bo) (b_wv bo) (b_wr bo) arv awv a
           (if BURST then wrap CW (n + 2 ^ CW - 1) else 0)                         (* :52-55 *)
           wv d m (if BURST then (if lv then lcnt s =? 0 else n =? 1) else true)   (* :91-95, 112 *)
           true true).                                                             (* :119, 134 *)
  Definition avx_init (m1 : nat -> rq pay) x1 (m2 : nat -> D) x2 (m3 : nat -> nat) x3 : avx_st := mk_ax (amb_init 1 1 m1 x1 m2 x2 m3 x3) 0 false.
End Avx.
Arguments pay : clear implicits. Arguments avx_st : clear implicits. Arguments avx_in : clear implicits. Arguments avx_out : clear implicits.
