(** Specification for the I2C bit controller: levels of the open drain lines, the documented waves, sampling of the lines. *)
From Verif Require Import Base I2cModel.

(** a line which is not driven is high; (SCL, SDA) as the controller drives them *)
Definition levels (o : i2c_out) : bool * bool := (negb (o_scl o), negb (o_sda o)).

(** a part of a history: one cycle without a command, or the cycles in which one command is presented *)
Inductive seg := no_cmd (i : i2c_in) | command (cmd : nat) (d : bool) (is : list i2c_in).
Definition cycles (g : seg) : list i2c_in := match g with no_cmd i => [i] | command _ _ is => is end.
(** [is] is the command [cmd] with the data [d], held for [k] cycles *)
Definition held_for (k cmd : nat) (d : bool) (is : list i2c_in) : Prop := length is = k /\ Forall (fun i => i_cmd i = cmd /\ i_din i = d) is.
Definition seg_ok (g : seg) : Prop :=
  match g with
  | no_cmd i => i_cmd i = NOP
  | command cmd d is => cmd = START /\ held_for 6 cmd d is \/ (cmd = STOP \/ cmd = READ \/ cmd = WRITE) /\ held_for 5 cmd d is
  end.

(** the waves of the documentation from the levels [l] on, one pair for each cycle of the command, and the levels after it *)
Definition wave (g : seg) (l : bool * bool) : list (bool * bool) * (bool * bool) :=
  match g with
  | no_cmd _ => ([l], l)
  | command cmd d _ =>
      if cmd =? START then ([l; l; (fst l, true); (true, true); (true, false); (true, false)], (false, false))
      else if cmd =? STOP then ([l; l; (false, false); (true, false); (true, false)], (true, true))
      else if cmd =? READ then ([l; l; (false, true); (true, true); (true, true)], (false, true))
      else ([l; l; (false, d); (true, d); (true, d)], (false, d))
  end.
Fixpoint waves (gs : list seg) (l : bool * bool) : list (bool * bool) :=
  match gs with [] => [] | g :: gs' => fst (wave g l) ++ waves gs' (snd (wave g l)) end.
(** a command is confirmed in its last cycle and only there *)
Definition acks (g : seg) : list bool :=
  match g with no_cmd _ => [false] | command _ _ is => repeat false (length is - 1) ++ [true] end.

(** samples of a line [x] before cycle [n], the newest one first: one in each [c] + 1 cycles, two cycles late; the line is
    taken as low before reset, the samples are taken as high *)
Fixpoint samples (c : nat) (x : nat -> bool) (n : nat) : list bool :=
  match n with
  | 0 => [true; true; true]
  | S m => if S m mod (c + 1) =? 0 then (if m <? 2 then false else x (m - 2)) :: samples c x m else samples c x m
  end.
Definition majority (l : list bool) : bool := 2 <=? length (filter (fun b => b) (firstn 3 l)).
(** the line without glitches *)
Definition clean (c : nat) (x : nat -> bool) (n : nat) : bool := majority (samples c x n).
(** value of clean line in the cycle before, high before reset *)
Definition before (f : nat -> bool) (n : nat) : bool := match n with 0 => true | S m => f m end.
(** lines of a history *)
Definition scl_of (is : list i2c_in) (n : nat) : bool := nth n (map i_scl is) true.
Definition sda_of (is : list i2c_in) (n : nat) : bool := nth n (map i_sda is) true.
(** low for at most [c] + 1 cycles, then high for at least two sampling periods *)
Definition only_glitches (c : nat) (x : nat -> bool) : Prop :=
  forall n m, n < m -> x n = false -> x m = false -> m - n <= c \/ 2 * (c + 1) < m - n.

(** no other device on the bus: the lines are as the controller drives them *)
Definition alone (s : i2c) (is : list i2c_in) : Prop :=
  map (fun i => (i_scl i, i_sda i)) is = map levels (outs i2c_step s is).

(** each level of SCL lasts for more than [c] cycles: between a change and the next one *)
Definition slow_clock (c : nat) (os : list i2c_out) : Prop :=
  forall n m, let l k := nth k (map o_scl os) false in
  n < m -> m < length os -> l n <> l (S n) -> l (S n) <> l m -> S n + c < m.

(** what the user of the controller keeps: STOP, READ and WRITE start only while SCL is driven low (behind a START), and a
    command is held until it is confirmed *)
Definition polite (c : nat) (is : list i2c_in) : Prop :=
  (forall p x q, is = p ++ x :: q -> s_st (final i2c_step (i2c_init c) p) = idle ->
     i_cmd x = STOP \/ i_cmd x = READ \/ i_cmd x = WRITE -> s_scl (final i2c_step (i2c_init c) p) = true) /\
  (forall p x y q, is = p ++ x :: y :: q -> i_cmd x <> NOP -> o_rd (snd (i2c_step (final i2c_step (i2c_init c) p) x)) = false ->
     i_cmd y = i_cmd x /\ i_din y = i_din x).
