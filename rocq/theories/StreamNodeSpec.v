(** What an observer of the channels of a StreamNode relies on. *)
From Verif Require Import Base StreamNodeModel.

(** The pin driven by the other side: valid of a master, ready of a slave. *)
Definition offered (c : chan) : bool := match sig c with None => true | Some v => v end.
Definition skipped (c : chan) : bool := match skip c with None => false | Some s => s end.
Definition blocked (c : chan) : bool := match extra c with None => false | Some e => negb e end.

(** Transfers: both sides of the handshake are high. *)
Definition master_transfers (n : node) (en : bool) (i : nat) (c : chan) : bool :=
  offered c && rd_of_master n en i c.
Definition slave_transfers (n : node) (en : bool) (j : nat) (c : chan) : bool :=
  offered c && vld_of_slave n en j c.

(** Every channel which takes part has its partner waiting. *)
Definition everyone_waits (n : node) : Prop :=
  (forall c, In c (masters n) -> skipped c = false -> offered c = true) /\
  (forall c, In c (slaves n) -> skipped c = false -> offered c = true).

Definition no_extra (n : node) : Prop :=
  forall c, In c (masters n ++ slaves n) -> extra c = None.
