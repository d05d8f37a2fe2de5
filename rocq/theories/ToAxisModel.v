(** Model of hwtLib/handshaked/dataRdVldToAxi4Stream.py [DataRdVldToAxi4Stream]. *)
From Verif Require Import Base HsRegModel StreamNodeModel.

Section ToAxis.
  Context {A : Type}.
  Record ta_in := mk_ti { ti_vld : bool; ti_data : A; ti_ready : bool }.
  Record ta_out := mk_to { to_rd : bool; to_vld : bool; to_data : A; to_last : bool }.

  (** MAX_FRAME_WORDS only, :100-119; the state is frame_word *)
  Definition ta_max_step (n : nat) (fw : nat) (i : ta_in) : nat * ta_out :=
    let last := fw =? n - 1 in
    let cin := mk_chan (Some (ti_vld i)) None None in
    let cout := mk_chan (Some (ti_ready i)) None None in
    let sn := mk_node [cin] [cout] in
    (if node_ack sn then (if last then 0 else winc (log2ceil n) fw) else fw,
     mk_to (rd_of_master sn true 0 cin) (vld_of_slave sn true 0 cout) (ti_data i) last).

  (** IN_TIMEOUT only, :83-98; the state is the HandshakedReg [r] and timeout_cntr.  construct_timeout_cntr_and_in_reg :38-46 *)
  Record tt_state := mk_tt { tt_r : stage A; tt_cntr : nat }.
  Definition tt_init (d0 : A) (t : nat) : tt_state := mk_tt (mk_stage KLat false d0) (t - 1).
  Definition ta_time_step (t : nat) (s : tt_state) (i : ta_in) : tt_state * ta_out :=
    let r_vld := occ (tt_r s) in
    let last := tt_cntr s =? 0 in
    let cin := mk_chan (Some r_vld) None None in
    let cout := mk_chan (Some (ti_ready i)) None None in
    let sn := mk_node [cin] [cout] in
    let en := last || ti_vld i in
    let r_rd := rd_of_master sn en 0 cin in
    (mk_tt (stage_next (tt_r s) (ti_vld i) (ti_data i) r_rd)
           (if last && ti_ready i then t - 1
            else if negb (ti_vld i) && r_vld && negb last then wdec (log2ceil t) (tt_cntr s)
            else tt_cntr s),
     mk_to (stage_rd (tt_r s) r_rd) (vld_of_slave sn en 0 cout) (sdat (tt_r s)) last).

  (** both, :52-81 *)
  Record tb_state := mk_tb { tb_r : stage A; tb_cntr : nat; tb_fw : nat }.
  Definition tb_init (d0 : A) (t : nat) : tb_state := mk_tb (mk_stage KLat false d0) (t - 1) 0.
  Definition ta_both_step (t n : nat) (s : tb_state) (i : ta_in) : tb_state * ta_out :=
    let r_vld := occ (tb_r s) in
    let last_timeout := tb_cntr s =? 0 in
    let last := last_timeout || (tb_fw s =? n - 1) in
    let cond := last_timeout || (ti_vld i && r_vld) in
    let cin := mk_chan (Some r_vld) (Some cond) None in
    let cout := mk_chan (Some (ti_ready i)) (Some cond) None in
    let sn := mk_node [cin] [cout] in
    let r_rd := rd_of_master sn true 0 cin in
    (mk_tb (stage_next (tb_r s) (ti_vld i) (ti_data i) r_rd)
           (if negb r_vld || (last && ti_ready i) then t - 1
            else if negb (ti_vld i) && r_vld && negb last then wdec (log2ceil t) (tb_cntr s)
            else tb_cntr s)
           (if node_ack sn then (if last then 0 else winc (log2ceil (n - 1)) (tb_fw s)) else tb_fw s),
     mk_to (stage_rd (tb_r s) r_rd) (vld_of_slave sn true 0 cout) (sdat (tb_r s)) last).
End ToAxis.
Arguments ta_in : clear implicits.
Arguments ta_out : clear implicits.
Arguments tt_state : clear implicits.
Arguments tb_state : clear implicits.
