(** Model of hwtLib/amba/axi_comp/stream_to_mem.py [Axi4streamToMem]. Not modelled: AxiLiteEndpoint in front of the registers (writes of
    control and baseAddr are inputs, values to be read are outputs, the endpoint is in EpModel.v) and constant fields of aw. *)
From Verif Require Import Base.

Section S2m.
  Context {D : Type} (AW BYTES LEN MAX : nat).  (* ADDR_WIDTH, DATA_WIDTH // 8, DATA_LEN, MAX_BUTST_LEN *)

  (** st_t, stream_to_mem.py:226-227 *)
  Inductive st_t := fullIdle | writeAddr | writeData | writeDataLast.
  (** state_reg, on_off_reg, baseAddr_reg, actualAddr_reg, lenRem_reg, actualLenRem_reg; :229-236 *)
  Record s2m := mk_s { s_st : st_t; s_on : bool; s_base : nat; s_addr : nat; s_rem : nat; s_cur : nat }.
  (** control.dout (vld, data[0]), baseAddr.dout, aw.ready, w.ready, dataIn.vld, dataIn.data *)
  Record s2m_in := mk_in { i_ctl : option bool; i_base : option nat; i_awr : bool; i_wr : bool; i_vld : bool; i_data : D }.
  (** aw.valid, addr, len; w.valid, data, last; dataIn.rd; idle and on/off as fed to control.din; baseAddr.din *)
  Record s2m_out := mk_out { o_awv : bool; o_addr : nat; o_len : nat; o_wv : bool; o_data : D; o_last : bool; o_rd : bool;
                             o_idle : bool; o_on : bool; o_base : nat }.

  (** width of lenRem_reg, :234 *)
  Definition LW : nat := (if LEN =? 0 then 0 else Nat.log2 LEN + 1) + 1.

  (** control.din, :126-127: on/off, idle, DATA_WIDTH - 2 zeros; Concat has the most significant part first *)
  Definition control_din (on idle : bool) : nat := Nat.b2n on * 2 ^ (8 * BYTES - 1) + Nat.b2n idle * 2 ^ (8 * BYTES - 2).

  Definition w_en (s : s2m) : bool := match s_st s with writeData | writeDataLast => true | _ => false end.
  (** :171-177 [w_allAck] *)
  Definition w_ack (s : s2m) (i : s2m_in) : bool := w_en s && i_vld i && i_wr i.

  (** :138-169 [mainFsm] *)
  Definition st_next (s : s2m) (i : s2m_in) : st_t :=
    match s_st s with
    | fullIdle => if s_on s then writeAddr else fullIdle
    | writeAddr => if i_awr i then (if s_rem s =? 1 then writeDataLast else writeData) else writeAddr
    | writeData => if w_ack s i && (s_cur s =? 2) then writeDataLast else writeData
    | writeDataLast => if w_ack s i then (if negb (s_rem s =? 0) then writeAddr else fullIdle) else writeDataLast
    end.
  (** :104-118; in the last branch actualAddr is increased by words *)
  Definition rem_next (s : s2m) (i : s2m_in) : nat :=
    match s_st s with
    | fullIdle => LEN
    | writeAddr => if i_awr i then (if MAX <? s_rem s then s_rem s - MAX else 0) else s_rem s
    | _ => s_rem s
    end.
  Definition addr_next (s : s2m) (i : s2m_in) : nat :=
    match s_st s with
    | fullIdle => s_base s
    | writeAddr => if i_awr i then wrap AW (s_addr s + (if MAX <? s_rem s then MAX * BYTES else s_rem s)) else s_addr s
    | _ => s_addr s
    end.
  (** :201-217; actualLenRem_reg has the 8 bits of aw.len *)
  Definition cur_next (s : s2m) (i : s2m_in) : nat :=
    match s_st s with
    | writeData => if w_ack s i then wdec 8 (s_cur s) else s_cur s
    | writeDataLast => if w_ack s i then 0 else s_cur s
    | _ => if MAX <? s_rem s then MAX else wrap 8 (s_rem s)
    end.

  Definition s2m_step (s : s2m) (i : s2m_in) : s2m * s2m_out :=
    (mk_s (st_next s i)
          (* :129-131, 134-136 *)
          (match i_ctl i with Some b => b | None => s_on s end) (match i_base i with Some b => wrap AW b | None => s_base s end)
          (addr_next s i) (rem_next s i) (cur_next s i),
     (* :87-101, 179-197, 125-133 *)
     mk_out (match s_st s with writeAddr => true | _ => false end) (s_addr s) (if MAX <? s_rem s then MAX - 1 else wrap 8 (wdec LW (s_rem s)))
            (i_vld i && w_en s) (i_data i) (match s_st s with writeDataLast => true | _ => false end) (w_en s && i_wr i)
            (match s_st s with fullIdle => true | _ => false end) (s_on s) (s_base s)).
  (** actualAddr_reg and actualLenRem_reg have no reset value *)
  Definition s2m_init (a c : nat) : s2m := mk_s fullIdle false 0 a LEN c.
End S2m.
Arguments s2m_in : clear implicits. Arguments s2m_out : clear implicits.
