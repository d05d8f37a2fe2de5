From Verif Require Import Base StreamSpec Mi32Model.

(** * Mi32_to_Axi4Lite *)
Section ToAxi.
  Context {Ad W D : Type}.
  Notation cyc := (ma_in Ad W D * ma_out W D)%type.
  (** MI32 reads and writes accepted *)
  Definition mrd1 (c : cyc) : list Ad := if mi_rd (fst c) && mo_ardy (snd c) then [mi_addr (fst c)] else [].
  Definition mwr1 (c : cyc) : list (Ad * W) := if mi_wr (fst c) && mo_ardy (snd c) then [(mi_addr (fst c), mi_dwr (fst c))] else [].
  (** transfers on ar, aw, w *)
  Definition ar1 (c : cyc) : list Ad := if xo_ar (snd c) && xi_ar (fst c) then [mi_addr (fst c)] else [].
  Definition aw1 (c : cyc) : list Ad := if xo_aw (snd c) && xi_aw (fst c) then [mi_addr (fst c)] else [].
  Definition w1 (c : cyc) : list W := match xo_w (snd c) with Some w => if xi_w (fst c) then [w] else [] | None => [] end.
  (** a request which is not accepted is repeated in the next cycle; no read together with a write *)
  Fixpoint master_holds (t : list cyc) : Prop :=
    match t with
    | c :: t' => mi_rd (fst c) && mi_wr (fst c) = false /\
        match t' with
        | d :: _ => mo_ardy (snd c) = false -> mi_rd (fst c) || mi_wr (fst c) = true ->
            mi_rd (fst d) = mi_rd (fst c) /\ mi_wr (fst d) = mi_wr (fst c) /\ mi_addr (fst d) = mi_addr (fst c) /\
            mi_dwr (fst d) = mi_dwr (fst c)
        | [] => True
        end /\ master_holds t'
    | [] => True
    end.
End ToAxi.

(** * Axi4Lite_to_Mi32 *)
Section FromAxi.
  Context {Ad W D : Type}.
  Notation cyc := (am_in Ad W D * am_out Ad D)%type.
  Definition axr1 (c : cyc) : list Ad := match axi_ar (fst c) with Some a => if axo_ar (snd c) then [a] else [] | None => [] end.
  Definition axw1 (c : cyc) : list Ad := match axi_aw (fst c) with Some a => if axo_aw (snd c) then [a] else [] | None => [] end.
  Definition mir1 (c : cyc) : list Ad := if mo_rd (snd c) && mi_ardy (fst c) then [mo_addr (snd c)] else [].
  Definition miw1 (c : cyc) : list Ad := if mo_wr (snd c) && mi_ardy (fst c) then [mo_addr (snd c)] else [].
  (** The transaction which a master has open, if it makes one at a time. *)
  Inductive phase := Idle | RdReq (a : Ad) | RdWait | RdData (d : D) | WrReq (a : Ad).
  (** What a sequential master and an MI32 slave may do: a new request only if none is open, never a read with a write; the write data
      comes with or before the address and the response is taken at once; read data comes only after the request was accepted. *)
  Definition seq_env (p : phase) (i : am_in Ad W D) : Prop :=
    match p with
    | Idle => (axi_ar i = None \/ axi_aw i = None) /\ mi_d i = None
    | RdWait => axi_ar i = None /\ axi_aw i = None
    | WrReq _ => axi_ar i = None /\ axi_aw i = None /\ axi_w i <> None /\ axi_brd i = true /\ mi_d i = None
    | _ => axi_ar i = None /\ axi_aw i = None /\ mi_d i = None
    end.
  (** The outputs which the open transaction asks for. Pins of a channel whose valid or enable is 0 are not constrained. *)
  Definition seq_out (p : phase) (i : am_in Ad W D) (o : am_out Ad D) : Prop :=
    match p with
    | Idle => (axi_aw i = None -> axo_ar o = true) /\ (axi_ar i = None -> axo_aw o = true) /\ axo_w o = false /\ axo_b o = false /\ axo_r o = None /\
              mo_rd o = false /\ mo_wr o = false
    | RdReq a => axo_w o = false /\ axo_b o = false /\ axo_r o = None /\ mo_rd o = true /\ mo_wr o = false /\ mo_addr o = a
    | RdWait => axo_w o = false /\ axo_b o = false /\ axo_r o = None /\ mo_rd o = false /\ mo_wr o = false
    | RdData d => axo_w o = false /\ axo_b o = false /\ axo_r o = Some d /\ mo_rd o = false /\ mo_wr o = false
    | WrReq a => axo_w o = mi_ardy i /\ axo_b o = mi_ardy i /\ axo_r o = None /\ mo_rd o = false /\ mo_wr o = true /\ mo_addr o = a
    end.
  Definition seq_next (p : phase) (i : am_in Ad W D) : phase :=
    match p with
    | Idle => match axi_ar i, axi_aw i with Some a, _ => RdReq a | None, Some a => WrReq a | None, None => Idle end
    | RdReq a => if mi_ardy i then RdWait else p
    | RdWait => match mi_d i with Some d => RdData d | None => RdWait end
    | RdData d => if axi_rrd i then Idle else p
    | WrReq a => if mi_ardy i then Idle else p
    end.
  Fixpoint seq_law (p : phase) (t : list cyc) : Prop :=
    match t with
    | [] => True
    | c :: t' => seq_env p (fst c) -> seq_out p (fst c) (snd c) /\ seq_law (seq_next p (fst c)) t'
    end.
End FromAxi.

(** * Mi32SlidingWindow *)
(** [off] is the last word written to the offset register. *)
Fixpoint window_law (MAW : nat) (WINDOW off : N) (t : list (sw_in * sw_out)) : Prop :=
  match t with
  | [] => True
  | (i, o) :: t' =>
      let sel := si_wr i = true /\ si_addr i = WINDOW in
      (* writes of the offset are accepted at once and are not seen behind the window *)
      (sel -> so_ardy o = true /\ so_wr o = false) /\
      (* everything else is passed to the address in the window *)
      (~ sel -> so_ardy o = si_ardy i /\ so_rd o = si_rd i /\ so_wr o = si_wr i /\
                so_addr o = ((off + si_addr i) mod 2 ^ N.of_nat MAW)%N) /\
      ((sel -> window_law MAW WINDOW (si_dwr i mod 2 ^ N.of_nat MAW)%N t') /\ (~ sel -> window_law MAW WINDOW off t'))
  end.

(** * Mi32Buff *)
Section Buff.
  Context {R D : Type}.
  (** requests seen at both sides; no request is neither read nor write *)
  Definition bf_obs (c : bf_in R D * bf_out R D) : hs_cycle (bool * bool * R) (bool * bool * R) :=
    mk_hs (bi_rd (fst c) || bi_wr (fst c)) (bo_ardy (snd c)) (bi_rd (fst c), bi_wr (fst c), bi_req (fst c))
          (bo_rd (snd c) || bo_wr (snd c)) (bi_ardy (fst c)) (bo_rd (snd c), bo_wr (snd c), bo_req (snd c)).
End Buff.
