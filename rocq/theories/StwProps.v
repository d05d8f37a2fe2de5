(** C165: requests and acknowledges of StructWriter *)
From Verif Require Import Base StwModel StwSpec StwProofs.
Local Open Scope nat_scope.

(** the requests are those for the frames of accepted addresses, in order, and a part of those for the next address *)
Theorem C165_requests : forall aw fs addrs ins, fs <> [] -> let os := outs (sw_step aw fs) (sw_init addrs) ins in
  exists part, reqs os = flat_map (reqs_at aw fs) (firstn (count o_set os) addrs) ++ part /\ length part < length fs /\
  (part <> [] -> exists a rest, nth_error addrs (count o_set os) = Some a /\ reqs_at aw fs a = part ++ rest).
Proof. exact requests. Qed.
Print Assumptions C165_requests.

(** acknowledges are consumed only for requests; the exact number of write acknowledges for any number of frames *)
Theorem C165_ack_count : forall aw fs addrs ins, fs <> [] -> let os := outs (sw_step aw fs) (sw_init addrs) ins in
  count o_ack os <= length (reqs os) /\ count o_wack os = count o_ack os - (count o_ack os + (length fs - 1)) / length fs.
Proof. exact acks. Qed.
Print Assumptions C165_ack_count.

(** a request is made exactly in the clocks where set is valid, an address remains and req and the queue are ready; set is accepted only with a request *)
Theorem C165_req_handshake : forall aw fs addrs ins n i o, fs <> [] -> let os := outs (sw_step aw fs) (sw_init addrs) ins in
  nth_error ins n = Some i -> nth_error os n = Some o ->
  (o_req o <> None <-> i_vld i = true /\ i_req_rd i = true /\ i_info_rd i = true /\ count o_set (firstn n os) < length addrs) /\ (o_set o = true -> o_req o <> None).
Proof. exact sw_handshake_req. Qed.
Print Assumptions C165_req_handshake.

(** an acknowledge of the datapump is accepted exactly when a request without acknowledge remains and, unless it belongs to a first frame, writeAck is ready;
    writeAck is given exactly with the accepted acknowledges of other than first frames (the claim would be: of last frames) *)
Theorem C165_ack_handshake : forall aw fs addrs ins n i o, fs <> [] -> let os := outs (sw_step aw fs) (sw_init addrs) ins in
  nth_error ins n = Some i -> nth_error os n = Some o -> let first := count o_ack (firstn n os) mod length fs = 0 in
  (o_ack o = true <-> i_ack_vld i = true /\ i_info_vld i = true /\ count o_ack (firstn n os) < length (reqs (firstn n os)) /\ (first \/ i_wack_rd i = true)) /\
  (o_wack o = true <-> o_ack o = true /\ ~ first).
Proof. exact sw_handshake_ack. Qed.
Print Assumptions C165_ack_handshake.

(** one write acknowledge for each structure whose frames were all acknowledged. Missing: other numbers of frames than two, where it is false *)
Theorem C165_ack_partial : forall aw fs addrs ins, length fs = 2 -> let os := outs (sw_step aw fs) (sw_init addrs) ins in count o_wack os = count o_ack os / length fs.
Proof. exact acks_two. Qed.
Print Assumptions C165_ack_partial.

(** a structure of a single frame is never acknowledged *)
Theorem C165_single_refuted : forall aw f addrs ins, count o_wack (outs (sw_step aw [f]) (sw_init addrs) ins) = 0.
Proof. exact acks_one. Qed.
Print Assumptions C165_single_refuted.

(** one structure of three frames is acknowledged twice *)
Theorem C165_three_refuted : exists aw fs addrs ins, length fs = 3 /\ let os := outs (sw_step aw fs) (sw_init addrs) ins in count o_set os = 1 /\ count o_ack os = 3 /\ count o_wack os = 2.
Proof. exact acks_three. Qed.
Print Assumptions C165_three_refuted.

(** the hypotheses are met: two structures of two frames, with waiting *)
Example C165_case :
  let go := mk_swi true true true true true true in
  let hold := mk_swi true false true true true false in
  let fs := [(0, 1, 0); (32, 0, 4)]%N in
  let os := outs (sw_step 8 fs) (sw_init [16; 240]%N) [go; hold; go; hold; go; go; go; go] in
  fs <> [] /\ length fs = 2 /\ reqs os = [(16, 1, 0); (48, 0, 4); (240, 1, 0); (16, 0, 4)]%N /\ count o_set os = 2 /\ count o_ack os = 4 /\ count o_wack os = 2.
Proof. cbv zeta. split; [discriminate|]. vm_compute. auto 6. Qed.
(** a single frame: written and acknowledged by the datapump, without writeAck *)
Example C165_case_single :
  let os := outs (sw_step 32 [(0, 1, 0)%N]) (sw_init [16%N]) (repeat (mk_swi true true true true true true) 5) in
  count o_set os = 1 /\ count o_ack os = 1 /\ count o_wack os = 0.
Proof. vm_compute. auto. Qed.
(** handshakes: the second clock waits for req, the acknowledge of the first frame does not wait for writeAck *)
Example C165_case_handshake :
  let fs := [(0, 1, 0); (32, 0, 4)]%N in
  let ins := [mk_swi true true true true true true; mk_swi true false true true true false] in
  let os := outs (sw_step 8 fs) (sw_init [16%N]) ins in
  nth_error os 1 = Some (mk_swo None false true false) /\ count o_ack (firstn 1 os) = 0 /\ length (reqs (firstn 1 os)) = 1.
Proof. vm_compute. auto. Qed.
