(** USB transactions: what a device has to answer (USB 2.0, chapter 8), as signals around the endpoint machine. *)
From Verif Require Import Base UefModel.

(** What is seen: a handshake packet sent, a word of a data packet sent, a word given to the endpoint *)
Inductive ev := EvHs (pid : option nat) | EvTx (pid : option nat) (last : bool) | EvRx (last err : bool).
Definition ev_of (c : uf_in * uf_out) : list ev :=
  let '(i, o) := c in
  (if o_cv o && c_rd i then (if o_el o then [EvHs (o_pid o)] else [EvTx (o_pid o) (e_tl i)]) else []) ++
  (if o_rv o then [EvRx (d_last i) (d_err i)] else []).
Definition events (t : list (uf_in * uf_out)) : list ev := flat_map ev_of t.

(** A transaction is the list of its cycles, split to its phases.
    - a pause; a reset of the bus; another packet (SOF, handshakes)
    - IN: token, then (for stall and nak) cycles until the handshake is sent,
      or the cycles of the data packet, one cycle after it and the answer of the host (a cycle with ACK if [ack])
    - OUT and SETUP: token, cycles before the data, header of the data packet, data, (no answer to data with an error or) cycles until the handshake
    - PING: token, cycles until the handshake *)
Inductive answer := Stall | Nak | Ready.
Inductive tr :=
| TPause (l : list uf_in)
| TReset (i : uf_in)
| TOther (i : uf_in)
| TBad (tok : uf_in) (hs : list uf_in)
| TInHs (e : nat) (a : answer) (tok : uf_in) (hs : list uf_in)
| TInData (e : nat) (tok : uf_in) (body : list uf_in) (fin : uf_in) (ack : option uf_in)
| TOut (e : nat) (setup : bool) (a : answer) (tok : uf_in) (gap : list uf_in) (hdr : uf_in) (body : list uf_in) (hs : list uf_in)
| TPing (e : nat) (a : answer) (tok : uf_in) (hs : list uf_in).

Definition cycles (x : tr) : list uf_in :=
  match x with
  | TPause l => l
  | TReset i => [i]
  | TOther i => [i]
  | TBad tok hs => tok :: hs
  | TInHs _ _ tok hs => tok :: hs
  | TInData _ tok body fin ack => tok :: body ++ fin :: match ack with Some i => [i] | None => [] end
  | TOut _ _ _ tok gap hdr body hs => tok :: gap ++ hdr :: body ++ hs
  | TPing _ _ tok hs => tok :: hs
  end.

(** no header, no reset, no chirp; no data from the host *)
Definition calm (i : uf_in) : Prop := f_rst i = false /\ f_chirp i = false /\ h_vld i = false.
Definition silent (i : uf_in) : Prop := d_vld i = false /\ d_err i = false.
(** a header without an error *)
Definition header (i : uf_in) (pid e : nat) : Prop :=
  f_rst i = false /\ f_chirp i = false /\ h_vld i = true /\ h_err i = false /\ h_pid i = pid /\ h_endp i = e.
(** cycles until the handshake is sent: the transmitter is ready in the last one only *)
Fixpoint until_sent (l : list uf_in) : Prop :=
  match l with
  | [] => False
  | [i] => calm i /\ c_rd i = true
  | i :: l' => calm i /\ c_rd i = false /\ until_sent l'
  end.
(** the data packet of the endpoint is sent; data packet of the host *)
Fixpoint tx_packet (e : nat) (l : list uf_in) : Prop :=
  match l with
  | [] => False
  | [i] => calm i /\ h_endp i = e /\ e_tv i = true /\ c_rd i = true /\ e_tl i = true
  | i :: l' => calm i /\ h_endp i = e /\ e_tv i && c_rd i && e_tl i = false /\ tx_packet e l'
  end.
Fixpoint rx_packet (e : nat) (l : list uf_in) : Prop :=
  match l with
  | [] => False
  | [i] => calm i /\ h_endp i = e /\ d_vld i = true /\ d_last i = true
  | i :: l' => calm i /\ h_endp i = e /\ d_vld i && d_last i = false /\ d_err i = false /\ rx_packet e l'
  end.
Definition rx_bad (l : list uf_in) : bool := existsb d_err l.

Record toggles := mk_tg { tg_out : nat -> bool; tg_in : nat -> bool }.
Definition tg0 : toggles := mk_tg (fun _ => false) (fun _ => false).
Definition data_pid (b : bool) : nat := if b then P_DATA1 else P_DATA0.
Definition hs_pid (a : answer) : nat := match a with Stall => P_STALL | Nak => P_NACK | Ready => P_ACK end.

(** the answer of the endpoint follows from its signals at the token *)
Definition in_answer (i : uf_in) : answer := if e_tstall i then Stall else if e_tv i then Ready else Nak.
Definition out_answer (setup : bool) (i : uf_in) : answer := if negb setup && e_rstall i then Stall else if e_rrd i then Ready else Nak.

Section Good.
  Variables has_out has_in : nat -> bool.
  (** the cycles are those of the transaction *)
  Definition well_formed (x : tr) : Prop :=
    match x with
    | TPause l => Forall calm l
    | TReset i => f_rst i = true
    | TOther i => f_rst i = false /\ f_chirp i = false /\ h_vld i = true /\ ~ In (h_pid i) [P_IN; P_OUT; P_SETUP; P_PING]
    | TBad tok hs => f_rst tok = false /\ f_chirp tok = false /\ h_vld tok = true /\ h_err tok = true /\ h_pid tok = P_IN /\ e_tv tok = false /\ e_tstall tok = false /\ Forall calm hs
    | TInHs e a tok hs => header tok P_IN e /\ in_answer tok = a /\ a <> Ready /\ until_sent hs /\ (forall i, In i hs -> e_tstall i = true -> a = Stall)
    | TInData e tok body fin ack => header tok P_IN e /\ has_in e = true /\ in_answer tok = Ready /\ tx_packet e body /\ calm fin /\
                                    (forall i, ack = Some i -> header i P_ACK e)
    | TOut e setup a tok gap hdr body hs =>
        header tok (if setup then P_SETUP else P_OUT) e /\ out_answer setup tok = a /\ has_out e = true /\ Forall (fun i => calm i /\ silent i) gap /\
        silent hdr /\ f_rst hdr = false /\ f_chirp hdr = false /\ h_vld hdr = true /\ h_endp hdr = e /\ (h_pid hdr = P_DATA0 \/ h_pid hdr = P_DATA1) /\
        rx_packet e body /\ (if rx_bad body then hs = [] else until_sent hs)
    | TPing e a tok hs => header tok P_PING e /\ out_answer false tok = a /\ until_sent hs
    end.

  (** data of the host are new: the expected number *)
  Definition fresh (tg : toggles) (e : nat) (setup : bool) (hdr : uf_in) : bool := h_pid hdr =? data_pid (if setup then false else tg_out tg e).
  (** what the device has to do *)
  Definition respond (tg : toggles) (x : tr) : list ev * toggles :=
    match x with
    | TPause _ => ([], tg)
    | TReset _ => ([], tg0)
    | TOther _ => ([], tg)
    | TBad _ _ => ([], tg)
    | TInHs _ a _ _ => ([EvHs (Some (hs_pid a))], tg)
    | TInData e _ body _ ack =>
        (flat_map (fun i => if e_tv i && c_rd i then [EvTx (Some (data_pid (tg_in tg e))) (e_tl i)] else []) body,
         match ack with Some _ => mk_tg (tg_out tg) (upd (tg_in tg) e (negb (tg_in tg e))) | None => tg end)
    | TOut e setup a _ _ hdr body _ =>
        let tg1 := if setup then mk_tg (upd (tg_out tg) e false) (upd (tg_in tg) e true) else tg in
        match a with
        | Ready =>
            if rx_bad body then ((if fresh tg e setup hdr then flat_map (fun i => if d_vld i then [EvRx (d_last i) (d_err i)] else []) body else []), tg1)
            else if fresh tg e setup hdr
            then (flat_map (fun i => if d_vld i then [EvRx (d_last i) (d_err i)] else []) body ++ [EvHs (Some P_ACK)],
                  mk_tg (upd (tg_out tg1) e (negb (tg_out tg1 e))) (tg_in tg1))
            else ([EvHs (Some P_ACK)], tg1)
        | _ => (if rx_bad body then [] else [EvHs (Some (hs_pid a))], tg1)
        end
    | TPing _ a _ _ => ([EvHs (Some (hs_pid a))], tg)
    end.
  Fixpoint respond_all (tg : toggles) (l : list tr) : list ev :=
    match l with [] => [] | x :: l' => fst (respond tg x) ++ respond_all (snd (respond tg x)) l' end.

  (** Guard of the proved part: no tokens with an error, no PING, IN data are acknowledged, data of the host are not repeated, and IN of the endpoint is not
      stalled while the handshake of OUT is sent *)
  Definition served (tg : toggles) (x : tr) : Prop :=
    match x with
    | TBad _ _ => False
    | TPing _ _ _ _ => False
    | TInData _ _ _ _ ack => ack <> None
    | TOut e setup a _ _ hdr _ hs => (a = Ready -> fresh tg e setup hdr = true) /\ (forall i, In i hs -> e_tstall i = true -> a = Stall)
    | _ => True
    end.
  Fixpoint all_served (tg : toggles) (l : list tr) : Prop :=
    match l with [] => True | x :: l' => served tg x /\ all_served (snd (respond tg x)) l' end.
End Good.
