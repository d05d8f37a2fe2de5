(** Model of hwtLib/structManipulators/structWriter.py [StructWriter.hwImpl]: requests to the datapump and write acknowledges.
    Simplified: WRITE_ACK is True (no buffer on [set]); addresses which wait on [set] are a list whose head is on the data pins;
    the buffer ackPropageteInfo is a queue which accepts and shows its items whenever the environment wants (any depth and latency,
    see C04 for the queue); the data channel (frame deparser) is not part of the model. *)
From Verif Require Import Base.
Local Open Scope nat_scope.

(** a frame of the structure: byte offset, word count - 1, rem *)
Definition fr := (N * N * N)%type.
Record sws := mk_sws { w_todo : list N; w_idx : nat; w_info : list bool }.
(** set.vld, req.rd, rd and vld of the queue, ack.vld, writeAck.rd *)
Record swi := mk_swi { i_vld : bool; i_req_rd : bool; i_info_rd : bool; i_info_vld : bool; i_ack_vld : bool; i_wack_rd : bool }.
(** transfers in the clock: req (addr, len, rem), set, ack, writeAck *)
Record swo := mk_swo { o_req : option fr; o_set : bool; o_ack : bool; o_wack : bool }.

(** :19-20 *)
Definition SKIP : bool := true.
Definition PROPAGATE : bool := false.
(** req.addr, req.len, req.rem, :100-102; the address has [aw] bits *)
Definition req_of (aw : N) (addr : N) (f : fr) : fr := let '(start, len, rem) := f in (((addr + start) mod 2 ^ aw)%N, len, rem).
(** ackPropageteInfo.dataIn.data, :103 *)
Definition token (idx : nat) : bool := if negb (idx =? 0) then SKIP else PROPAGATE.

(** propagateRequest (:95-108) with the index of StaticForEach (hwt), and the node for acknowledges (:116-122) *)
Definition sw_step (aw : N) (fs : list fr) (s : sws) (i : swi) : sws * swo :=
  let set_vld := i_vld i && negb (match w_todo s with [] => true | _ => false end) in
  let fire := set_vld && i_req_rd i && i_info_rd i in
  let is_last := w_idx s =? length fs - 1 in
  let info_vld := i_info_vld i && negb (match w_info s with [] => true | _ => false end) in
  let skip := Bool.eqb (hd false (w_info s)) PROPAGATE in
  let ackf := i_ack_vld i && info_vld && (skip || i_wack_rd i) in
  let wack := i_ack_vld i && info_vld && negb skip && i_wack_rd i in
  (mk_sws (if fire && is_last then tl (w_todo s) else w_todo s)
          (if fire then (if is_last then 0 else S (w_idx s)) else w_idx s)
          ((if ackf then tl (w_info s) else w_info s) ++ (if fire then [token (w_idx s)] else [])),
   mk_swo (if fire then Some (req_of aw (hd 0%N (w_todo s)) (nth (w_idx s) fs (0, 0, 0)%N)) else None) (fire && is_last) ackf wack).
Definition sw_init (addrs : list N) : sws := mk_sws addrs 0 [].
