(** Shared definitions: clocked machines, small arithmetic helpers.

    Nothing here models a particular component.  [log2ceil] is the helper
    [hwt.math.log2ceil] of the (external) hwt library, used all over /repo to
    size registers; its definition is part of the trusted base (see DESIGN.md). *)
From Coq Require Export List Arith NArith ZArith Lia Bool.
From Coq Require Export ZifyBool ZifyNat ZifyN.
Export ListNotations.

(** hwt.math.log2ceil: 0 and 1 need one bit, otherwise ceil(log2 x). *)
Definition log2ceil (x : nat) : nat := if x <=? 1 then 1 else Nat.log2_up x.

(** Wrap-around of a [w]-bit unsigned register. *)
Definition wrap (w x : nat) : nat := x mod (2 ^ w).
Definition winc (w x : nat) : nat := wrap w (x + 1).
Definition wdec (w x : nat) : nat := wrap w (x + 2 ^ w - 1).

(** Update of one word of a memory. *)
Definition upd {A} (m : nat -> A) (i : nat) (v : A) : nat -> A :=
  fun j => if j =? i then v else m j.

(** A clocked machine: one call of [step] is one rising edge of the clock;
    the output is what is visible on the pins during that cycle. *)
Section Run.
  Context {S I O : Type} (step : S -> I -> S * O).

  Fixpoint run (s : S) (is : list I) : S * list O :=
    match is with
    | [] => (s, [])
    | i :: is' =>
        let '(s1, o) := step s i in
        let '(s2, os) := run s1 is' in
        (s2, o :: os)
    end.

  Definition final (s : S) (is : list I) : S := fst (run s is).
  Definition outs (s : S) (is : list I) : list O := snd (run s is).
  (** inputs and outputs of each cycle, side by side *)
  Definition trace (s : S) (is : list I) : list (I * O) := combine is (outs s is).
End Run.
