(** MDIO as seen on the pins of the master. *)
From Verif Require Import Base MdioModel.

(** the level which the master gives to the open drain line: it pulls it down if t is set, otherwise the line is high *)
Definition line (o : md_out) : bool := negb (o_t o).
(** the rising edges of md.c: (value of md.io.i, level given by the master) in the cycle before the edge *)
Fixpoint edges (t : list (md_in * md_out)) : list (bool * bool) :=
  match t with
  | (i, o) :: (((_, o') :: _) as t') => if negb (o_c o) && o_c o' then (i_io i, line o) :: edges t' else edges t'
  | _ => []
  end.
(** the cycles up to the first one in which [p] holds, it included *)
Fixpoint upto (p : md_out -> bool) (t : list (md_in * md_out)) : option (list (md_in * md_out)) :=
  match t with
  | [] => None
  | (i, o) :: t' => if p o then Some [(i, o)] else option_map (cons (i, o)) (upto p t')
  end.
(** a request with fields of the widths of the interface *)
Definition well_formed (i : md_in) : Prop :=
  length (i_op i) = 2 /\ length (i_phy i) = 5 /\ length (i_reg i) = 5 /\ length (i_wdata i) = 16.
(** bits of a frame which the master gives on the line, MSB first, after the preamble: ST OP PA RA TA D *)
Definition write_frame (i : md_in) : list bool :=
  [false; true] ++ i_op i ++ i_phy i ++ i_reg i ++ [true; false] ++ i_wdata i.
(** for a read the line is released for the turn around and the data *)
Definition read_frame (i : md_in) : list bool :=
  [false; true] ++ i_op i ++ i_phy i ++ i_reg i ++ repeat true 18.
(** number of ones before the frame *)
Definition preamble (k : nat) : Prop := k = 31 \/ k = 32.
(** the transaction is over: the next request or the read data are there *)
Definition finished (o : md_out) : bool := o_rd o || o_vld o.
(** the last [k] elements *)
Definition last_bits (k : nat) (l : list bool) : list bool := skipn (length l - k) l.
(** the level of the line does not change with the rising edge of md.c, except if the cycle after it satisfies [p] *)
Fixpoint hold_time (p : md_out -> bool) (t : list (md_in * md_out)) : Prop :=
  match t with
  | (_, o) :: (((_, o') :: _) as t') => (o_c o = false -> o_c o' = true -> p o' = false -> line o' = line o) /\ hold_time p t'
  | _ => True
  end.
(** read data which were not taken stay *)
Fixpoint rdata_held (t : list (md_in * md_out)) : Prop :=
  match t with
  | (i, o) :: (((_, o') :: _) as t') =>
      (o_vld o = true -> i_rd i = false -> o_vld o' = true /\ o_data o' = o_data o) /\ rdata_held t'
  | _ => True
  end.
