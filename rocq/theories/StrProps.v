(** C166: requests of StructReader *)
From Verif Require Import Base StrModel StrSpec StrProofs.
Local Open Scope nat_scope.

(** for words of k bytes: the requests mean exactly the bytes of frames of accepted addresses, in order, and a part of those for the next address *)
Theorem C166_requests_partial : forall aw k fs addrs ins, (0 < k)%N -> fs <> [] -> Forall frame_ok fs -> let os := outs (sr_step aw (8 * k) fs) (sr_init addrs) ins in
  exists part, map (bytes_of (8 * k)) (sr_reqs os) = flat_map (fun a => map (frame_bytes aw a) fs) (firstn (gets os) addrs) ++ part /\ length part < length fs /\
  (part <> [] -> exists a rest, nth_error addrs (gets os) = Some a /\ map (frame_bytes aw a) fs = part ++ rest).
Proof. exact covers_all. Qed.
Print Assumptions C166_requests_partial.

(** a request is made exactly in the clocks where get is valid, an address remains and req is ready; get is accepted only with a request *)
Theorem C166_handshake : forall aw dw fs addrs ins n i o, fs <> [] -> let os := outs (sr_step aw dw fs) (sr_init addrs) ins in
  nth_error ins n = Some i -> nth_error os n = Some o ->
  (ro_req o <> None <-> i = (true, true) /\ gets (firstn n os) < length addrs) /\ (ro_get o = true -> ro_req o <> None).
Proof. exact sr_handshake. Qed.
Print Assumptions C166_handshake.

(** rem fits to its signal. Missing here and in C166_requests_partial: frames which do not end at a whole byte; there it is false, see below *)
Theorem C166_rem_partial : forall aw k fs addrs ins, (0 < k)%N -> fs <> [] -> Forall frame_ok fs ->
  Forall (fun r => N.to_nat (snd r) < 2 ^ rem_bits (8 * k)) (sr_reqs (outs (sr_step aw (8 * k) fs) (sr_init addrs) ins)).
Proof. exact fits_all. Qed.
Print Assumptions C166_rem_partial.

(** a structure of 61 bits and words of 64 bits: rem is 8 and does not fit to 3 bits *)
Theorem C166_rem_refuted : exists aw k f, (0 < k)%N /\ (fst f < snd f)%N /\ 2 ^ rem_bits (8 * k) <= N.to_nat (snd (rd_req aw (8 * k) 0 f)).
Proof. exact rem_over. Qed.
Print Assumptions C166_rem_refuted.

(** the hypotheses are met: two frames, the last word of the second one is not full *)
Example C166_case :
  let fs := [(0, 64); (128, 208)]%N in
  let os := outs (sr_step 32 (8 * 8) fs) (sr_init [256; 1024]%N) [(true, true); (true, false); (true, true); (false, true); (true, true)] in
  (0 < 8)%N /\ fs <> [] /\ Forall frame_ok fs /\ sr_reqs os = [(256, 0, 0); (272, 1, 2); (1024, 0, 0)]%N /\ map (bytes_of 64) (sr_reqs os) = [(256, 8); (272, 10); (1024, 8)]%N /\ gets os = 1.
Proof.
  cbv zeta. split; [reflexivity|]. split; [discriminate|]. split; [repeat (apply Forall_cons; [split; reflexivity|]); apply Forall_nil|]. split; [vm_compute; reflexivity|]. split; vm_compute; reflexivity.
Qed.
