(** Model of hwtLib/handshaked/streamNode.py [StreamNode] (channels are plain
    interfaces or tuples; nested [ExclusiveStreamGroups] are not modelled). *)
From Verif Require Import Base.

(** A channel of the node: [sig] is the valid of a master / the ready of a slave, [None] if it
    is the constant 1 of a (valid, ready) tuple (streamNode.py:84-85); [extra] and [skip] are
    the entries of extraConds/skipWhen for the channel, [None] if there is none. *)
Record chan := mk_chan { sig : option bool; extra : option bool; skip : option bool }.
Record node := mk_node { masters : list chan; slaves : list chan }.

(** hwt.code.And over a list. *)
Definition all_true (l : list bool) : bool := forallb (fun b => b) l.

(** vld() / rd(), streamNode.py:245-295: the two methods are the same up to the signal. *)
Definition sync_sig (c : chan) : bool :=
  match sig c with
  | None => true
  | Some v => match skip c with None => v | Some s => v || s end
  end.

Definition extra_list (c : chan) : list bool := match extra c with None => [] | Some e => [e] end.

(** all but the [i]-th: the filters "if m is not master" (streamNode.py:305, 326); the channels
    of a node are unique (doc of masters/slaves). *)
Definition others {A} (i : nat) (l : list A) : list A := firstn i l ++ skipn (S i) l.

(** "r & ~skip", streamNode.py:312-313, 334-335. *)
Definition mask_skip (c : chan) (r : bool) : bool :=
  match skip c with None => r | Some s => r && negb s end.

(** ackForMaster, streamNode.py:297-315 *)
Definition ack_for_master (n : node) (i : nat) (c : chan) : bool :=
  mask_skip c (all_true (map sync_sig (others i (masters n)) ++ map sync_sig (slaves n) ++ extra_list c)).

(** ackForSlave, streamNode.py:317-337 *)
Definition ack_for_slave (n : node) (j : nat) (c : chan) : bool :=
  mask_skip c (all_true (map sync_sig (masters n) ++ map sync_sig (others j (slaves n)) ++ extra_list c)).

(** sync, streamNode.py:121-180: the driver of the ready of each master and of the valid of
    each slave; [en] is enSig ([true] when it is None).  Channels whose driven side is the
    constant 1 are not represented (streamNode.py:158-160: nothing is driven there). *)
Definition rd_of_master (n : node) (en : bool) (i : nat) (c : chan) : bool := ack_for_master n i c && en.
Definition vld_of_slave (n : node) (en : bool) (j : nat) (c : chan) : bool := ack_for_slave n j c && en.

(** ack, streamNode.py:182-227 *)
Definition ack1 (c : chan) : list bool :=
  match sig c with
  | None => []
  | Some v =>
      let a := all_true (v :: extra_list c) in
      [match skip c with None => a | Some s => a || s end]
  end.
Definition node_ack (n : node) : bool :=
  all_true (flat_map ack1 (masters n) ++ flat_map ack1 (slaves n)).

