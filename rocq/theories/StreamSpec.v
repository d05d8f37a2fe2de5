(** Specification vocabulary for ready/valid streams.

    A word is transferred on a channel exactly in the cycles in which both
    [vld] and [rd] are high.  Every statement is made about what an outside
    observer of the pins sees. *)
From Verif Require Import Base.

(** What the observer sees of one input and one output channel in a cycle. *)
Record hs_cycle (A B : Type) := mk_hs {
  in_vld : bool; in_rd : bool; in_data : A;
  out_vld : bool; out_rd : bool; out_data : B }.
Arguments mk_hs {A B}. Arguments in_vld {A B}. Arguments in_rd {A B}.
Arguments in_data {A B}. Arguments out_vld {A B}. Arguments out_rd {A B}.
Arguments out_data {A B}.

(** Words the component took from its producer, oldest first. *)
Fixpoint accepted {A B} (t : list (hs_cycle A B)) : list A :=
  match t with
  | [] => []
  | c :: t' => if in_vld c && in_rd c then in_data c :: accepted t' else accepted t'
  end.

(** Words the component handed to its consumer, oldest first. *)
Fixpoint delivered {A B} (t : list (hs_cycle A B)) : list B :=
  match t with
  | [] => []
  | c :: t' => if out_vld c && out_rd c then out_data c :: delivered t' else delivered t'
  end.

(** A queue of capacity [cap]: what was delivered is a prefix of what was
    accepted (nothing lost, duplicated, reordered or invented) and at most
    [cap] words are inside. [init] are words present after reset. *)
Definition queue_law {A} (cap : nat) (init : list A) (t : list (hs_cycle A A)) : Prop :=
  exists inside, init ++ accepted t = delivered t ++ inside /\ length inside <= cap.

(** Number of words inside. *)
Definition stored {A} (init : list A) (t : list (hs_cycle A A)) : nat :=
  length init + length (accepted t) - length (delivered t).

(** A word offered and not taken is offered again, unchanged, in the next cycle. *)
Fixpoint out_stable {A B} (t : list (hs_cycle A B)) : Prop :=
  match t with
  | c :: ((c' :: _) as t') =>
      (out_vld c = true -> out_rd c = false -> out_vld c' = true /\ out_data c' = out_data c)
      /\ out_stable t'
  | _ => True
  end.
