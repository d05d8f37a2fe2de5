(** Model of hwtLib/amba/axi_comp/slave_timeout.py [Axi4SlaveTimeout]: the read channels (ar, r) and the write channels (aw, w, b).
    P is the type of the fields of a response beside the id (data, resp, last); the address and data channels are wires
    (slave_timeout.py:54-56). *)
From Verif Require Import Base.

(** what is put on the response channel: the response of the slave, or the one made by the timeout with RESP_SLVERR, the given
    id and unknown data *)
Inductive rsp (P : Type) := SlaveRsp (id : nat) (p : P) | TimeoutRsp (id : nat).
Arguments SlaveRsp {P} _ _. Arguments TimeoutRsp {P} _.

(** timer_t, slave_timeout.py:51; the reset value TIMER_MAX has to fit *)
Definition to_w (T : nat) : nat := log2ceil (T - 1).
Definition to_ok (T : nat) : bool := (0 <? T - 1) && (T - 1 <? 2 ^ to_w T).

Section Timeout.
  Context {P : Type}.
  (** r_pending, timeout_timer_r, r_id (slave_timeout.py:58-60) or b_pending, timeout_timer_b, b_id (slave_timeout.py:91-94) *)
  Record to_st := mk_to { t_pend : bool; t_timer : nat; t_id : nat }.
  (** start: the handshake which starts the timer (ar, or the last w); id handshake (ar or aw); response of the slave; ready of the
      master *)
  Record to_in := mk_toi { ti_start : bool; ti_ida : bool; ti_id : nat; ti_rsp : option (nat * P); ti_rd : bool }.
  (** valid with the fields at the master, ready at the slave *)
  Record to_out := mk_too { to_rsp : option (rsp P); to_srd : bool }.

  (** slave_timeout.py:58-60, 91-94; r_id has no reset value *)
  Definition to_init (T id : nat) : to_st := mk_to false (T - 1) id.

  (** slave_timeout.py:73-88, 107-114: the response channel *)
  Definition to_o (s : to_st) (i : to_in) : to_out :=
    if t_pend s && (t_timer s =? 0) then mk_too (Some (TimeoutRsp (t_id s))) true
    else mk_too (match ti_rsp i with Some (id, p) => Some (SlaveRsp id p) | None => None end) (ti_rd i).

  (** the read channels, slave_timeout.py:58-88; ar.valid & ar.ready is [ti_start] *)
  Definition tor_step (T : nat) (s : to_st) (i : to_in) : to_st * to_out :=
    let o := to_o s i in
    (if t_pend s then mk_to (negb (t_timer s =? 0)) (wdec (to_w T) (t_timer s)) (t_id s)
     else if ti_start i then mk_to (match to_rsp o with Some _ => false | None => true end) (T - 1) (ti_id i)
     else s, o).

  (** the write channels, slave_timeout.py:91-114; w.valid & w.ready & w.last is [ti_start], aw.valid & aw.ready is [ti_ida] *)
  Definition tow_step (T : nat) (s : to_st) (i : to_in) : to_st * to_out :=
    let o := to_o s i in
    let id' := if ti_ida i then ti_id i else t_id s in
    (if t_pend s then mk_to (negb (t_timer s =? 0)) (wdec (to_w T) (t_timer s)) id'
     else if ti_start i then mk_to (match ti_rsp i with Some _ => false | None => true end) (T - 1) id'
     else mk_to (t_pend s) (t_timer s) id', o).
End Timeout.
Arguments to_in : clear implicits. Arguments to_out : clear implicits.
