(** Model of hwtLib/peripheral/usb/usb2/device_ep_buffers.py [UsbDeviceEpBuffers], the part to the host: connect_tx_part (:80-132) and the
    buffers from hwImpl (:158-176). The part from the host (connect_rx_part) is not modelled. [D] is data with keep. *)
From Verif Require Import Base FifoModel FifoCopyModel.

Section Epb.
  Context {D : Type}.
  Notation W := (cword D unit).
  (** tx_channels: index of the endpoint, buffer_size and max_packet_size if it has a buffer (buffer_size > 0) *)
  Variable chs : list (nat * option (nat * nat)).
  (** tx_packet_buffered_fifo.DEPTH, :162 *)
  Definition pb_depth (B M : nat) : nat := (B + M - 1) / M + 2.

  (** tx_fifo (Axi4SFifoCopy) and tx_packet_buffered_fifo (HandshakedFifo without data) of the endpoints *)
  Definition ep_st := nat -> ac_st D unit * hsf_st unit.
  (** ep[e].tx valid and word; usb_core_io: endp vld and data, tx.ready, tx_success vld and data *)
  Record ep_in := mk_epi { ei_vld : nat -> bool; ei_word : nat -> W; ei_ev : bool; ei_endp : nat; ei_rd : bool; ei_sv : bool; ei_sd : bool }.
  (** ep[e].tx ready; usb_core_io: tx valid and word ([None] is unknown), tx_stall *)
  Record ep_out := mk_epo { eo_rd : nat -> bool; eo_v : bool; eo_word : option W; eo_stall : bool }.
  Definition ep_cfg (e : nat) : option (option (nat * nat)) := option_map snd (find (fun c => fst c =? e) chs).
  Definition ep_init (m0 : nat -> nat -> W) (d0 : nat -> W) : ep_st :=
    fun e => (ac_init (m0 e) (d0 e) tt,
              hsf_init (match ep_cfg e with Some (Some (B, M)) => pb_depth B M | _ => 2 end) [] (fun _ => tt) tt).
  (** skipWhen of the masters of a channel, :121-126 *)
  Definition ep_skip (i : ep_in) (e : nat) : bool := negb (ei_endp i =? e).
  (** valid of the data and of the mark of a buffered packet (channels without a buffer have no marks) *)
  Definition ch_v (s : ep_st) (i : ep_in) (c : nat * option (nat * nat)) : bool :=
    match snd c with Some _ => ac_ovld (fst (s (fst c))) | None => ei_vld i (fst c) end.
  Definition ch_pv (s : ep_st) (c : nat * option (nat * nat)) : bool :=
    match snd c with Some _ => ovld (snd (s (fst c))) | None => true end.
  Definition ch_word (s : ep_st) (i : ep_in) (c : nat * option (nat * nat)) : W :=
    match snd c with Some _ => ac_shown (fst (s (fst c))) | None => ei_word i (fst c) end.
  (** both masters of the channel are valid or skipped; the same for all other channels *)
  Definition ch_ok (s : ep_st) (i : ep_in) (c : nat * option (nat * nat)) : bool :=
    (ch_v s i c || ep_skip i (fst c)) && (ch_pv s c || ep_skip i (fst c)).
  Definition others_ok (s : ep_st) (i : ep_in) (e : nat) : bool := forallb (fun c => (fst c =? e) || ch_ok s i c) chs.
  (** ready of the data and of the mark of the channel, :110-129 *)
  Definition ch_rd (s : ep_st) (i : ep_in) (c : nat * option (nat * nat)) : bool :=
    ei_ev i && ei_rd i && others_ok s i (fst c) && (ch_pv s c || ep_skip i (fst c)) && (ei_endp i =? fst c) && negb (ep_skip i (fst c)).
  Definition ch_prd (s : ep_st) (i : ep_in) (c : nat * option (nat * nat)) : bool :=
    ei_ev i && ei_rd i && others_ok s i (fst c) && (ch_v s i c || ep_skip i (fst c)) && ((ei_endp i =? fst c) && cw_last (ch_word s i c)) &&
    negb (ep_skip i (fst c)).

  (** the node between ep[e].tx and the buffers, :86-98: skip of the mark, ready, valid of both buffers *)
  Definition in_skip (i : ep_in) (e : nat) : bool := ei_vld i e && negb (cw_last (ei_word i e)).
  Definition in_wr (s : ep_st) (e B : nat) : bool := negb (fc_wwait (B - 1) (ac_f (fst (s e)))).
  Definition in_pr (s : ep_st) (e : nat) : bool := negb (f_wwait (hf (snd (s e)))).
  Definition in_rd (s : ep_st) (i : ep_in) (e B : nat) : bool := in_wr s e B && (in_pr s e || in_skip i e).
  Definition in_v (s : ep_st) (i : ep_in) (e : nat) : bool := ei_vld i e && (in_pr s e || in_skip i e).
  Definition in_pv (s : ep_st) (i : ep_in) (e B : nat) : bool := ei_vld i e && in_wr s e B && cw_last (ei_word i e) && negb (in_skip i e).

  (** one clock edge; copies of frames are never requested, :100 *)
  Definition ep_next (s : ep_st) (i : ep_in) (e : nat) : ac_st D unit * hsf_st unit :=
    match ep_cfg e with
    | Some (Some (B, M)) =>
        (fst (ac_step B (fst (s e)) (mk_aci (in_v s i e) (ei_word i e) (ch_rd s i (e, Some (B, M))) false tt)),
         fst (hsf_step (pb_depth B M) (snd (s e)) (mk_hin (in_pv s i e B) tt (ch_prd s i (e, Some (B, M))))))
    | _ => s e
    end.
  Definition ep_step (s : ep_st) (i : ep_in) : ep_st * ep_out :=
    (ep_next s i,
     mk_epo (fun e => match ep_cfg e with Some (Some (B, M)) => in_rd s i e B | Some None => ch_rd s i (e, None) | None => false end)
            (ei_ev i && forallb (ch_ok s i) chs)
            (option_map (ch_word s i) (find (fun c => fst c =? ei_endp i) chs))
            (negb (existsb (fun c => fst c =? ei_endp i) chs))).
End Epb.
Arguments ep_in : clear implicits. Arguments ep_out : clear implicits. Arguments ep_st : clear implicits.
