(** Model of hwtLib/peripheral/ethernet/_axis_eq.py [Axi4S_eq]: a constant of VW bits is compared with frames of an Axi4Stream with
    words of DW bits.  Words are numbers; strobe, keep, id, user and dest are not read by the component and are left out. *)
From Verif Require Import Base.

(** pins driven by the neighbours: dataIn.valid, data, last and dataOut.rd *)
Record aq_in := mk_aqi { qi_valid : bool; qi_data : nat; qi_last : bool; qi_rd : bool }.
(** pins driven by the component: dataIn.ready, dataOut.vld and data *)
Record aq_out := mk_aqo { qo_ready : bool; qo_vld : bool; qo_data : bool }.
(** registers word_index and state, :52-55 *)
Record aq_st := mk_aqs { q_index : nat; q_state : bool }.

Section AxisEq.
  Variables VW DW V : nat.

  (** :51 *)
  Definition word_cnt : nat := (VW + DW - 1) / DW.
  (** :52, width of word_index *)
  Definition index_w : nat := log2ceil (word_cnt - 1).
  (** :58-67, the comparison of word [i]: offset of word i is i * DW *)
  Definition val_low (i : nat) : nat := i * DW.
  Definition val_high (i : nat) : nat := Nat.min (val_low i + DW) VW.
  Definition slice (x high low : nat) : nat := (x / 2 ^ low) mod 2 ^ (high - low).
  Definition state_update (i d : nat) : bool :=
    slice d (val_high i - val_low i) 0 =? slice V (val_high i) (val_low i).

  (** :45-48, the value fits into a word *)
  Definition aq1_step (s : unit) (i : aq_in) : unit * aq_out :=
    (s, mk_aqo (qi_rd i) (qi_valid i) (slice (qi_data i) VW 0 =? V)).

  (** :80-84, StreamNode with dataOut skipped unless the last word is offered *)
  Definition aq_lastw (i : aq_in) : bool := qi_valid i && qi_last i.
  Definition aq_o (s : aq_st) (i : aq_in) : aq_out :=
    mk_aqo (qi_rd i || negb (aq_lastw i))
           (qi_valid i && aq_lastw i && negb (negb (aq_lastw i)))
           (q_state s && state_update (word_cnt - 1) (qi_data i)).
  (** :69, StreamNode([din], [dout]).ack() without the skip *)
  Definition aq_ack (i : aq_in) : bool := qi_valid i && qi_rd i.
  (** :69-78, there is a case for every word but the last one *)
  Definition aq_case (s : aq_st) (d : nat) : bool :=
    if q_index s <? word_cnt - 1 then q_state s && state_update (q_index s) d else q_state s.
  Definition aq_next (s : aq_st) (i : aq_in) : aq_st :=
    if aq_ack i then
      if qi_last i then mk_aqs 0 true
      else mk_aqs (winc index_w (q_index s)) (aq_case s (qi_data i))
    else s.
  Definition aq_step (s : aq_st) (i : aq_in) : aq_st * aq_out := (aq_next s i, aq_o s i).
  Definition aq_init : aq_st := mk_aqs 0 true.
End AxisEq.
