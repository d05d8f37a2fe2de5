(** What the text dump of the monitor has to show. *)
From Coq Require Import NArith List.
From Verif Require Import Base DbmModel.
Import ListNotations.
Local Open Scope N_scope.

(** the values of signals as they are *)
Fixpoint show (name : nat) (t : hio) (ind : nat) : txt :=
  match t with HLeaf w v => [(ind, name, Some v)] | HNode l => (ind, name, None) :: shows l (S ind) end
with shows (l : hios) (ind : nat) : txt := match l with hnil => [] | hcons n t l' => show n t ind ++ shows l' ind end.
(** records with their children *)
Fixpoint want_tree (r : recs) (t : mtree) (ind : nat) : txt :=
  match t with
  | MT i ch =>
      let '(name, io) := nth i r (0%nat, None) in
      (match io with None => [(ind, name, None)] | Some t => show name t ind end) ++ want_forest r ch (S ind)
  end
with want_forest (r : recs) (f : mforest) (ind : nat) : txt := match f with fnil => [] | fcons t f' => want_tree r t ind ++ want_forest r f' ind end.

(** values fit to their signals *)
Fixpoint fits (t : hio) : Prop := match t with HLeaf w v => v < 2 ^ w | HNode l => fitss l end
with fitss (l : hios) : Prop := match l with hnil => True | hcons _ t l' => fits t /\ fitss l' end.
Definition rec_fits (x : nat * option hio) : Prop := match snd x with None => True | Some t => fits t end.
(** every record is in the hierarchy once *)
Fixpoint ids_t (t : mtree) : list nat := match t with MT i ch => i :: ids_f ch end
with ids_f (f : mforest) : list nat := match f with fnil => [] | fcons t f' => ids_t t ++ ids_f f' end.
Definition covers (r : recs) (f : mforest) : Prop := NoDup (ids_f f) /\ (forall i, In i (ids_f f) <-> (i < length r)%nat).
(** records without children *)
Fixpoint flat (l : list nat) : mforest := match l with [] => fnil | i :: l' => fcons (MT i fnil) (flat l') end.
(** the words on the bus: the data memory, with anything behind it *)
Definition on_bus (r : recs) (junk : N) (i : nat) : N :=
  let '(w, v) := hw_memory r in ((v + 2 ^ w * junk) / 2 ^ (32 * N.of_nat i)) mod 2 ^ 32.
(** [add_children] is used on records which are interfaces with members or visual only *)
Fixpoint nice_t (r : recs) (t : mtree) : Prop :=
  match t with MT i ch => (ch <> fnil -> forall n w v, nth i r (0%nat, None) <> (n, Some (HLeaf w v))) /\ nice_f r ch end
with nice_f (r : recs) (f : mforest) : Prop := match f with fnil => True | fcons t f' => nice_t r t /\ nice_f r f' end.
(** an interface with some signal *)
Fixpoint some_signal (t : hio) : bool := match t with HLeaf _ _ => true | HNode l => some_signals l end
with some_signals (l : hios) : bool := match l with hnil => false | hcons _ t l' => orb (some_signal t) (some_signals l') end.
(** the last root record has an interface and no children *)
Fixpoint ends_root (r : recs) (f : mforest) : Prop :=
  match f with
  | fnil => True
  | fcons (MT i ch) fnil => ch = fnil /\ exists n t, nth i r (0%nat, None) = (n, Some t) /\ some_signal t = true
  | fcons _ f' => ends_root r f'
  end.
