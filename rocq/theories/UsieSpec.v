(** What the adapters between UTMI and streams have to do. *)
From Verif Require Import Base UsieModel.

Section Spec.
  Context {D : Type}.
  (** words of the received packets: a packet is a run of cycles with active, its bytes are in the cycles with valid, the final byte
      of a packet is marked; [cur] is the byte which is known not to be followed by another one yet *)
  Fixpoint rx_words (cur : option (D * bool)) (is : list (ur_in D)) : list (option D * bool * bool) :=
    let flush l := match cur with Some (d, e) => [(Some d, e, l)] | None => [] end in
    match is with
    | [] => []
    | i :: is' =>
        if ui_active i then
          if ui_valid i then flush false ++ rx_words (Some (ui_data i, ui_error i)) is' else rx_words cur is'
        else flush true ++ rx_words None is'
    end.
  (** words given by the adapter *)
  Definition rx_given (os : list (ur_out D)) : list (option D * bool * bool) :=
    flat_map (fun o => if uo_vld o then [(uo_data o, uo_error o, uo_last o)] else []) os.
  (** once a byte of a packet was received, all cycles until the end of the packet carry bytes *)
  Fixpoint no_gap (is : list (ur_in D)) : Prop :=
    match is with
    | c :: ((c' :: _) as is') => (ui_active c = true -> ui_valid c = true -> ui_active c' = true -> ui_valid c' = true) /\ no_gap is'
    | _ => True
    end.

  (** bytes taken from the stream and bytes taken by the transceiver *)
  Definition tx_taken (t : list (ux_in D * ux_out D)) : list (D * bool) :=
    flat_map (fun io => if xi_valid (fst io) && xo_ready (snd io) then [(xi_data (fst io), xi_last (fst io))] else []) t.
  Definition tx_given (t : list (ux_in D * ux_out D)) : list D :=
    flat_map (fun io => if xo_vld (snd io) && xi_rd (fst io) then [xo_data (snd io)] else []) t.
  (** What the transceiver sees: packets are separated by cycles without valid in which it is ready;
      the bytes of a packet are the bytes between two such cycles. *)
  Fixpoint tx_packets (cur : list D) (t : list (ux_in D * ux_out D)) : list (list D) :=
    match t with
    | [] => []
    | io :: t' =>
        if xi_rd (fst io) then
          if xo_vld (snd io) then tx_packets (cur ++ [xo_data (snd io)]) t'
          else match cur with [] => tx_packets [] t' | _ => cur :: tx_packets [] t' end
        else tx_packets cur t'
    end.
  (** frames of the stream *)
  Fixpoint tx_frames (cur : list D) (ws : list (D * bool)) : list (list D) :=
    match ws with
    | [] => []
    | (d, l) :: ws' => if l then (cur ++ [d]) :: tx_frames [] ws' else tx_frames (cur ++ [d]) ws'
    end.
  (** valid must not go low in the middle of a packet (sie_tx.py:24-27): a byte without last is followed by a valid byte *)
  Fixpoint tx_continuous (inside : bool) (t : list (ux_in D * ux_out D)) : Prop :=
    match t with
    | [] => True
    | io :: t' => (inside = true -> xi_valid (fst io) = true) /\
        tx_continuous (if xi_valid (fst io) && xo_ready (snd io) then negb (xi_last (fst io)) else inside) t'
    end.
  (** a cycle in which the transceiver is ready and no byte is offered *)
  Definition is_idle (i : ux_in D) : Prop := xi_rd i = true /\ xi_valid i = false.
End Spec.
