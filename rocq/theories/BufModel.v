(** Model of [AbstractStreamBuilder.buff] (hwtLib/abstract/streamBuilder.py), of hwtLib/amba/axi_comp/buff.py [AxiBuff]
    and of hwtLib/cesnet/mi32/buff.py [Mi32Buff]. *)
From Verif Require Import Base HsRegModel FifoModel.

Section Buff.
  Context {A : Type}.
  (** what [buff] puts in the stream: nothing, HandshakedReg, HandshakedFifo of the given DEPTH *)
  Inductive hbuf := HWire | HReg (s : hsreg A) | HFifo (depth : nat) (s : hsf_st A).
  (** streamBuilder.py:159-219 without init_data; [None] where an assertion fails or NotImplementedError is raised.
      [d0], [m], [x]: unknown initial contents of registers and memories. *)
  Definition hb_init (items : nat) (lat : option latency) (delay : option nat) (d0 : nat -> A) (m : nat -> A) (x : A) : option hbuf :=
    if items =? 0 then
      match lat, delay with
      | (None | Some (LInt 0)), (None | Some 0) => Some HWire           (* :178-181 *)
      | _, _ => None
      end
    else
      let l := match lat with Some l => l | None => LInt (if items =? 1 then 1 else 2) end in   (* :183-190 *)
      let dl := match delay with Some d => d | None => 0 end in
      match l with
      | LBreak => option_map HReg (hsreg_init LBreak dl [] d0)
      | LInt n =>
          if n =? 0 then None                                           (* :198 *)
          else if (n =? 1) || (items <=? n) then option_map HReg (hsreg_init (LInt n) dl [] d0) (* :200-209 *)
          else if (n =? 2) && (dl =? 0) then Some (HFifo items (hsf_init items [] m x))         (* :210-219 *)
          else None
      end.
  Definition hb_step (u : A) (b : hbuf) (i : hsr_in A) : hbuf * hsr_out A :=
    match b with
    | HWire => (HWire, mk_hro (ri_rd i) (ri_vld i) (ri_data i))
    | HReg s => let '(s', o) := hsreg_step u s i in (HReg s', o)
    | HFifo d s => let '(s', o) := hsf_step d s (mk_hin (ri_vld i) (ri_data i) (ri_rd i)) in (HFifo d s', mk_hro (h_rd o) (h_vld o) (h_data o))
    end.
  Definition hb_def (items : nat) (d0 m : nat -> A) (x : A) : option hbuf := hb_init items None None d0 m x.
End Buff.
Arguments hbuf : clear implicits.

(** AxiBuff: five buffers, axi_comp/buff.py:50-66; [addr] ADDR_BUFF_DEPTH, [data] DATA_BUFF_DEPTH. The type of words of each channel is the same here: a sum of the five would do. *)
Section AxiBuff.
  Context {A : Type}.
  Record axb_st := mk_axb { b_ar : hbuf A; b_aw : hbuf A; b_w : hbuf A; b_r : hbuf A; b_b : hbuf A }.
  (** for each channel: valid and payload at its source (s for ar, aw, w; m for r, b), ready at its destination *)
  Record axb_in := mk_axi { i_ar : hsr_in A; i_aw : hsr_in A; i_w : hsr_in A; i_r : hsr_in A; i_b : hsr_in A }.
  Record axb_out := mk_axo { o_ar : hsr_out A; o_aw : hsr_out A; o_w : hsr_out A; o_r : hsr_out A; o_b : hsr_out A }.
  Definition axb_init (addr data : nat) (d0 m : nat -> A) (x : A) : option axb_st :=
    if (addr =? 0) && (data =? 0) then None                                                      (* :43-46 *)
    else match hb_def addr d0 m x, hb_def addr d0 m x, hb_def data d0 m x, hb_def data d0 m x, hb_def addr d0 m x with
         | Some ar, Some aw, Some w, Some r, Some b => Some (mk_axb ar aw w r b)
         | _, _, _, _, _ => None
         end.
  Definition axb_step (u : A) (s : axb_st) (i : axb_in) : axb_st * axb_out :=
    let '(ar, oar) := hb_step u (b_ar s) (i_ar i) in
    let '(aw, oaw) := hb_step u (b_aw s) (i_aw i) in
    let '(w, ow) := hb_step u (b_w s) (i_w i) in
    let '(r, or) := hb_step u (b_r s) (i_r i) in
    let '(b, ob) := hb_step u (b_b s) (i_b i) in
    (mk_axb ar aw w r b, mk_axo oar oaw ow or ob).
End AxiBuff.
Arguments axb_st : clear implicits. Arguments axb_in : clear implicits. Arguments axb_out : clear implicits.

(** Mi32Buff, mi32/buff.py *)
Section Mi32.
  (** addr, be and dwr of a request; drd *)
  Context {P D : Type}.
  (** rd, wr, payload *)
  Definition mrq : Type := bool * bool * P.
  Record mib_st := mk_mb { mb_a : hbuf mrq; mb_d : list (D * bool) }.
  (** s: request; m: ardy, drd, drdy *)
  Record mib_in := mk_mbi { mi_rq : mrq; mi_ardy : bool; mi_drd : D; mi_drdy : bool }.
  (** s.ardy, s.drd, s.drdy; m: request *)
  Record mib_out := mk_mbo { mo_ardy : bool; mo_drd : D; mo_drdy : bool; mo_rq : mrq }.
  Definition wants (q : mrq) : bool := fst (fst q) || snd (fst q).                                (* :65 *)
  (** read_data_reg0, 1, ... in a row; the result is the output of the last one, :89-98 *)
  Fixpoint regs_out (x : D * bool) (rs : list (D * bool)) : D * bool := match rs with [] => x | r :: rs => regs_out r rs end.
  Fixpoint regs_next (x : D * bool) (rs : list (D * bool)) : list (D * bool) := match rs with [] => [] | r :: rs => x :: regs_next r rs end.
  Definition mib_init (addr data : nat) (d0 m : nat -> mrq) (x : mrq) (dd : nat -> D) : option mib_st :=
    match hb_def addr d0 m x with Some a => Some (mk_mb a (map (fun k => (dd k, false)) (seq 0 data))) | None => None end.
  Definition mib_step (u : mrq) (s : mib_st) (i : mib_in) : mib_st * mib_out :=
    let '(a, o) := hb_step u (mb_a s) (mk_hri (wants (mi_rq i)) (mi_rq i) (mi_ardy i)) in         (* :56-67, 76, 81-83 *)
    let d := regs_out (mi_drd i, mi_drdy i) (mb_d s) in
    let q := ro_data o in
    (mk_mb a (regs_next (mi_drd i, mi_drdy i) (mb_d s)),
     mk_mbo (ro_rd o) (fst d) (snd d) (ro_vld o && fst (fst q), ro_vld o && snd (fst q), snd q)). (* :69-77 *)
End Mi32.
Arguments mib_st : clear implicits. Arguments mib_in : clear implicits. Arguments mib_out : clear implicits. Arguments mrq : clear implicits.
