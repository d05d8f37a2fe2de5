(** Ethernet frames on RMII and what the receiver has to give for them. *)
From Verif Require Import Base RmrModel.
Local Open Scope N_scope.

(** pairs of bits of a byte, the lowest first *)
Definition pairs (b : N) : list N := [b mod 4; (b / 4) mod 4; (b / 16) mod 4; (b / 64) mod 4].
Definition on (l : list N) : list (N * bool) := map (fun d => (d, true)) l.
Definition off (l : list N) : list (N * bool) := map (fun d => (d, false)) l.

(** what is on the line *)
Inductive seg :=
  (** crs_dv without data: not valid or 00 *)
  | Quiet (d : N) (v : bool)
  (** a frame with at least 4 clocks without crs_dv behind it, with any values of data there *)
  | Good (bytes : list N) (g0 g1 g2 g3 : N)
  (** a wrong byte [w] in the place of the byte [n] of the preamble or SFD (7), then anything until the end of crs_dv *)
  | Bad (n : nat) (w : N) (rest : list N) (g : N).
Definition seg_ok (x : seg) : Prop :=
  match x with
  | Quiet d v => v = false \/ d = 0
  | Good bytes _ _ _ _ => Forall (fun b => b < 256) bytes
  | Bad n w _ _ => (n <= 7)%nat /\ w < 256 /\ w <> (if (n =? 7)%nat then 213 else 85) /\ (n = 0%nat -> w mod 4 <> 0)
  end.
Definition line (x : seg) : list (N * bool) :=
  match x with
  | Quiet d v => [(d, v)]
  | Good bytes g0 g1 g2 g3 => on (flat_map pairs (repeat 85 7 ++ [213] ++ bytes)) ++ off [g0; g1; g2; g3]
  | Bad n w rest g => on (flat_map pairs (repeat 85 n ++ [w]) ++ rest) ++ off [g]
  end.
(** bytes of the frame, last is set only with the last one *)
Fixpoint frame (bytes : list N) : list beat :=
  match bytes with [] => [] | [b] => [(Some b, false, true)] | b :: bs => (Some b, false, false) :: frame bs end.
(** err in every clock of the rest of the wrong frame, last with the last one *)
Definition want (x : seg) : list beat :=
  match x with
  | Quiet _ _ => []
  | Good bytes _ _ _ _ => frame bytes
  | Bad _ _ rest _ => repeat (None, true, false) (length rest) ++ [(None, true, true)]
  end.
(** data transfers, in order *)
Fixpoint beats (l : list (option beat)) : list beat := match l with [] => [] | Some b :: l' => b :: beats l' | None :: l' => beats l' end.
(** transfers for the values on the line; the last value is in the input register only *)
Definition received (d pc : N) (l : list (N * bool)) : list beat := beats (outs rx_step (rx_init d pc) l).
(** nothing on the line *)
Definition quiet_n (n : nat) : list (N * bool) := off (repeat 0 n).
