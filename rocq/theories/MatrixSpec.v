(** Specification vocabulary of AxiInterconnectMatrix. *)
From Verif Require Import Base XbarSpec InterconnectSpec MatrixModel.

(** the configuration: the master has this access to the slave; the master sees the slave in any way *)
Definition may (MASTERS : list (list (nat * access))) (a : access) (m s : nat) : Prop :=
  exists l e, nth_error MASTERS m = Some l /\ In (s, e) l /\ (e = a \/ e = RW).
Definition sees (MASTERS : list (list (nat * access))) (m s : nat) : Prop := exists l e, nth_error MASTERS m = Some l /\ In (s, e) l.
(** the configuration names only slaves which exist *)
Definition valid_cfg (MASTERS : list (list (nat * access))) (SLAVES : list (nat * nat)) : Prop := forall m s, sees MASTERS m s -> s < length SLAVES.
(** a request of the port m with the address x is passed to the port s: through a sub interconnect whose configuration connects them *)
Definition reaches (l : list sub) (m x s : nat) : Prop :=
  exists sb k j ms r, In sb l /\ In (m, k) (sb_mc sb) /\ In (s, j) (sb_sc sb) /\ nth_error (sb_masters sb) k = Some ms /\ In j ms /\ nth_error (sb_slaves sb) j = Some r /\ owns r x.
(** no port is connected twice *)
Definition once (l : list sub) (ports : sub -> list (nat * nat)) : Prop :=
  forall i i' sb sb' p k k', nth_error l i = Some sb -> nth_error l i' = Some sb' -> In (p, k) (ports sb) -> In (p, k') (ports sb') -> i = i' /\ k = k'.
(** what python guarantees about the iteration of a set: every item once *)
Definition iterates (iter : list nat -> list nat) : Prop := forall l, NoDup (iter l) /\ forall x, In x (iter l) <-> In x l.
(** ... in ascending order *)
Definition ascending (iter : list nat -> list nat) : Prop := forall l i j x y, nth_error (iter l) i = Some x -> nth_error (iter l) j = Some y -> i < j -> x < y.
(** is the connection of the ports in the sub interconnect *)
Definition sub_conn (sb : sub) (k j : nat) : bool := match nth_error (sb_masters sb) k with Some l => existsb (Nat.eqb j) l | None => false end.
