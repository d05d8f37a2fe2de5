(** What Utmi_to_Ulpi has to do, seen from UTMI and from the PHY. *)
From Verif Require Import Base UlpModel.

Notation cyc := (ulp_in * ulp_out)%type.

(** * The PHY.  A transfer on the bus: a packet (the PID nibble and the other bytes) or a write of a register, each closed by stp. *)
Inductive xfer := Pkt (l : list nat) | Wr (cmd v : nat).
(** No transfer; a packet of which these bytes were taken; a write command was taken; a command and its value were taken. *)
Inductive pst := PIdle | PPkt (l : list nat) | PCmd (c : nat) | PVal (c v : nat).
(** dir of the previous cycle (after reset the bus is expected to be driven by the PHY), the transfer, finished transfers *)
Record phy := mk_phy { p_dir : bool; p_st : pst; p_done : list xfer }.
Definition phy0 : phy := mk_phy true PIdle [].
(** the link owns the bus and it is not the turnaround cycle *)
Definition owned (p : phy) (i : ulp_in) : bool := negb (p_dir p) && negb (dir i).
Definition phy_step (p : phy) (c : cyc) : phy :=
  let '(i, o) := c in
  let '(st, dn) := if uo_stp o then match p_st p with
                                    | PPkt l => (PIdle, p_done p ++ [Pkt l])
                                    | PVal c v => (PIdle, p_done p ++ [Wr c v])
                                    | _ => (PIdle, p_done p)
                                    end
                   else (p_st p, p_done p) in
  let st' := if owned p i then
               if nxt i then match st with
                             | PIdle => if uo_d o / 64 =? 1 then PPkt [uo_d o mod 64] else PCmd (uo_d o)
                             | PPkt l => PPkt (l ++ [uo_d o])
                             | PCmd c => PVal c (uo_d o)
                             | PVal c v => PVal c v
                             end
               else st
             else match st with PCmd _ => PIdle | _ => st end in
  mk_phy (dir i) st' dn.
Definition phy_of (t : list cyc) : phy := fold_left phy_step t phy0.
(** What an ULPI PHY does: nxt only for a command on the bus or for a byte of an open transfer, not in the cycle of stp and not in the turnaround
    to the link; it does not take the bus in the middle of a packet. *)
Definition phy_ok (p : phy) (c : cyc) : Prop :=
  let '(i, o) := c in
  (owned p i = true -> nxt i = true ->
     uo_stp o = false /\ match p_st p with PIdle => uo_d o <> 0 | PPkt _ | PCmd _ => True | PVal _ _ => False end) /\
  (dir i = false -> p_dir p = true -> nxt i = false) /\
  (uo_stp o = false -> match p_st p with PPkt _ => owned p i = true | _ => True end).
Fixpoint phys_ok (p : phy) (t : list cyc) : Prop := match t with [] => True | c :: t => phy_ok p c /\ phys_ok (phy_step p c) t end.
(** bytes of the open packet which the PHY has taken *)
Definition open_bytes (p : phy) : list nat := match p_st p with PPkt l => l | _ => [] end.
Definition packets (l : list xfer) : list (list nat) := flat_map (fun x => match x with Pkt p => [p] | _ => [] end) l.
Definition writes (a : nat) (l : list xfer) : list nat := flat_map (fun x => match x with Wr c v => if c =? a then [v] else [] | _ => [] end) l.

(** * UTMI.  A packet: bytes taken by tx.rd and tx.vld, it ends when tx.vld is low in a cycle with tx.rd.  Of its first byte only the PID is sent. *)
Definition utx : Type := list (list nat) * option (list nat).
Definition utx_step (u : utx) (c : cyc) : utx :=
  let '(i, o) := c in let '(dn, op) := u in
  if uo_rd o then
    if txv i then (dn, Some (match op with None => [txd i mod 16] | Some l => l ++ [txd i] end))
    else match op with None => u | Some l => (dn ++ [l], None) end
  else u.
Definition utx_of (t : list cyc) : utx := fold_left utx_step t ([], None).

(** * Reception: bytes which the PHY sends (nxt, bus owned by the PHY, not a turnaround) and the bytes seen on utmi.rx; [pd]: dir of the previous cycle *)
Fixpoint sent (pd : bool) (t : list cyc) : list nat :=
  match t with [] => [] | (i, _) :: t => (if pd && dir i && nxt i then [di i] else []) ++ sent (dir i) t end.
Definition seen (t : list cyc) : list nat := flat_map (fun c => if uo_rxv (snd c) then [uo_rxd (snd c)] else []) t.
(** line state of the last RX CMD (a cycle owned by the PHY without nxt) *)
Fixpoint last_line (pd : bool) (x : nat) (t : list cyc) : nat :=
  match t with [] => x | (i, _) :: t => last_line (dir i) (if pd && dir i && negb (nxt i) then di i mod 4 else x) t end.

(** * Control registers.  Their inputs are changed only in the first cycle or in a cycle in which the bridge is ready for a new packet
    (tx.rd without nxt), [f], [g]: previous values. *)
Fixpoint settled (first : bool) (f : fctl) (g : nat) (t : list cyc) : Prop :=
  match t with
  | [] => True
  | (i, o) :: t => (first = true \/ (uo_rd o = true /\ nxt i = false) \/ (fc i = f /\ otg i = g)) /\ settled false (fc i) (otg i) t
  end.
Definition last_in (is : list ulp_in) : fctl * nat := fold_left (fun _ i => (fc i, otg i)) is (fc_default, otg_default).
(** content of a register of the PHY after writes (the Reset bit 5 of function control clears itself) *)
Definition content (x : nat) (l : list nat) : nat := last l x.
Definition no_reset (v : nat) : nat := v - (if (v / 32) mod 2 =? 1 then 32 else 0).

(** A number of function_control without Reset *)
Definition fc_wf (f : fctl) : Prop := fst f < 128 /\ (fst f / 32) mod 2 = 0.
(** data.t as ulpi_agent.py:121-127 asks for: all ones unless the PHY drives or the bus is turned around *)
Definition drive_rule (p : phy) (c : cyc) : Prop := uo_t (snd c) = owned p (fst c).
