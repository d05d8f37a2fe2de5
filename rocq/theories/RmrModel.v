(** Model of hwtLib/peripheral/ethernet/rmii_adapter.py [RmiiAdapter._rx_logic] (receiver).
    Simplified: clk and eth.ref_clk are the same clock (FREQ None); 2 bits of RMII and 8 bits of data, the defaults;
    the one hot rx_cntr is the position of its 1; rx_reg0 is kept as its four pairs of bits, the highest first. *)
From Verif Require Import Base.
Local Open Scope N_scope.

(** rx_state_t, :170 *)
Inductive rst := Skip0 | Pre | Data | Err.
Record rxs := mk_rxs { x_st : rst; x_cn : nat; x_pc : N; x_r0 : N * N * N * N; x_r1 : N; x_r1v : bool }.
(** ETH.PREAMBLE_1B, ETH.SFD, constants.py:6-8 *)
Definition PREAMBLE_1B : N := 85.
Definition SFD : N := 213.

(** rx_actual_val, :173-174: Concat(din, reg0[:RMII_W]) *)
Definition shift0 (d : N) (r : N * N * N * N) : N * N * N * N := let '(a, b, c, _) := r in (d, a, b, c).
Definition actual (d : N) (r : N * N * N * N) : N := let '(a, b, c, e) := shift0 d r in a * 64 + b * 16 + c * 4 + e.
Definition last_in_B (s : rxs) (v : bool) : bool := (x_cn s =? 3)%nat && v.
(** the state, :176-203 *)
Definition st_next (s : rxs) (d : N) (v : bool) : rst :=
  match x_st s with
  | Skip0 => if v && negb (d =? 0) then Pre else Skip0
  | Pre =>
      if last_in_B s v then
        if x_pc s =? 0 then (if negb (actual d (x_r0 s) =? SFD) then Err else Data)
        else if negb (actual d (x_r0 s) =? PREAMBLE_1B) then Err else Pre
      else Pre
  | Err => if negb v then Skip0 else Err
  | Data => if (x_cn s =? 3)%nat && negb v then Skip0 else Data
  end.
(** rx_preamble_cntr of 3 bits *)
Definition pc_next (s : rxs) (d : N) (v : bool) : N :=
  match x_st s with
  | Skip0 => if v && negb (d =? 0) then 8 - 1 else x_pc s
  | Pre => if last_in_B s v then (x_pc s + 7) mod 8 else x_pc s
  | _ => x_pc s
  end.
(** bit collection, :205-214 *)
Definition cn_next (s : rxs) : nat := match x_st s with Skip0 => 1%nat | Err => x_cn s | _ => ((x_cn s + 1) mod 4)%nat end.
Definition r0_next (s : rxs) (d : N) : N * N * N * N := match x_st s with Skip0 => (d, 0, 0, 0) | Err => x_r0 s | _ => shift0 d (x_r0 s) end.
(** rx_reg1_vld and rx_reg1, :216-219 *)
Definition r1v_next (s : rxs) (v : bool) : bool := match x_st s with Data => last_in_B s v | _ => false end.
(** data (None is unknown), err and last of [rx] when vld, :220-229 *)
Definition beat := (option N * bool * bool)%type.
Definition rx_out (s : rxs) (v : bool) : option beat :=
  match x_st s with
  | Err => Some (None, true, negb v)
  | _ => if x_r1v s then Some (Some (x_r1 s), false, negb v) else None
  end.
(** one clock with the content of rx_din and rx_din_vld *)
Definition rx_core (s : rxs) (i : N * bool) : rxs * option beat :=
  let '(d, v) := i in
  (mk_rxs (st_next s d v) (cn_next s) (pc_next s d v) (r0_next s d) (if r1v_next s v then actual d (x_r0 s) else x_r1 s) (r1v_next s v), rx_out s v).
(** with the registers rx_din and rx_din_vld, :147-151; the input is rx.d and rx.crs_dv of RMII *)
Definition rx_step (s : (N * bool) * rxs) (i : N * bool) : ((N * bool) * rxs) * option beat :=
  let '(c, o) := rx_core (snd s) (fst s) in ((i, c), o).
(** after reset; rx_din and rx_preamble_cntr are not initialised *)
Definition rx_init (d pc : N) : (N * bool) * rxs := ((d, false), mk_rxs Skip0 0 pc (0, 0, 0, 0) 0 false).
