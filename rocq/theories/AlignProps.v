(** C44, C48: frame alignment utilities. *)
From Verif Require Import Base BaseFacts AlignModel AlignSpec AlignProofs.

(** a created frame has the requested gap, then exactly the bytes of the source in order, then padding *)
Theorem C44_create_frame : forall wb st bc oo oi, oo < wb -> oi < wb -> 0 < bc ->
  exists f pad, create_frame wb st bc oo oi = Some f /\
    concat f = repeat None oo ++ map (fun i => Some (source wb st bc oi i)) (seq 0 bc) ++ repeat None pad /\ pad < wb.
Proof. exact create_frame_ok. Qed.
Print Assumptions C44_create_frame.
Example C44_create_frame_witness : option_map (@concat _) (create_frame 2 7 3 1 1) =
  Some [None; Some (mk_bs 7 0 1 false); Some (mk_bs 7 1 0 true); Some (mk_bs 7 1 1 true)].
Proof. reflexivity. Qed.
(** a frame of no bytes is empty *)
Theorem C44_create_frame_bytes : forall wb st bc oo oi, oo < wb -> oi < wb ->
  exists f, create_frame wb st bc oo oi = Some f /\ bytes_of f = map (source wb st bc oi) (seq 0 bc).
Proof. exact create_bytes. Qed.
Print Assumptions C44_create_frame_bytes.

(** joined words are full words; together they are the gap, all bytes of all frames in order, padding in the last word *)
Theorem C44_join_streams : forall wb sd offset, offset < wb ->
  let bs := bytes_of (concat sd) in
  Forall (fun w => length w = wb) (join_streams wb sd offset) /\
  (offset = 0 -> bs = [] -> join_streams wb sd offset = []) /\
  exists pad, pad < wb /\ concat (join_streams wb sd offset) = repeat None offset ++ map Some bs ++ repeat None pad.
Proof. exact join_ok. Qed.
Print Assumptions C44_join_streams.
Theorem C44_join_created : forall wb (l : list (nat * nat * nat * nat)) sd offset, offset < wb ->
  Forall (fun '(st, bc, oo, oi) => oo < wb /\ oi < wb) l ->
  map (fun '(st, bc, oo, oi) => create_frame wb st bc oo oi) l = map Some sd ->
  exists pad, pad < wb /\ concat (join_streams wb sd offset) =
    repeat None offset ++ map Some (flat_map (fun '(st, bc, oo, oi) => map (source wb st bc oi) (seq 0 bc)) l) ++ repeat None pad.
Proof. exact join_created. Qed.
Print Assumptions C44_join_created.
Example C44_join_created_witness : exists sd,
  map (fun '(st, bc, oo, oi) => create_frame 2 st bc oo oi) [(0, 1, 0, 1); (1, 0, 0, 0); (2, 3, 1, 0)] = map Some sd /\
  join_streams 2 sd 1 = [[None; Some (mk_bs 0 0 1 true)]; [Some (mk_bs 2 0 0 false); Some (mk_bs 2 0 1 false)]; [Some (mk_bs 2 1 0 true); None]].
Proof. eexists [_; _; _]. split; reflexivity. Qed.

(** the offsets are exactly those where a stream of some allowed length ends; the loop terminates *)
Theorem C48_next_frame_offsets : forall bw dw len_min len_max, 0 < dw ->
  exists r, next_frame_offsets bw dw len_min len_max = Some r /\ NoDup r /\
  forall o, In o r <-> exists l, len_ok len_min len_max l /\ o = (l * bw) mod dw.
Proof. exact next_offsets_ok. Qed.
Print Assumptions C48_next_frame_offsets.
Example C48_next_frame_offsets_witness : next_frame_offsets 24 64 1 None = Some [24; 48; 8; 32; 56; 16; 40; 0] /\
  next_frame_offsets 24 64 1 (Some 3) = Some [24; 48; 8].
Proof. split; reflexivity. Qed.
