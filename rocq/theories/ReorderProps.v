(** C58: ReorderBuffer restores the sequence. *)
From Verif Require Import Base StreamSpec ReorderModel ReorderSpec ReorderProofs.

(** The words come out in the order of their identifiers, each once, with their data, whatever the order of arrival and the
    back-pressure, and an offered word stays offered. *)
Theorem C58_reorder (A : Type) (w : nat) (r0 : nat * A) (m : nat -> A) (a b c : A) (is : list (rb_in A)) :
  Forall (fun i => bi_id i < 2 ^ w) is ->
  let t := map rb_obs (trace (rb_step w) (rb_init r0 m a b c) is) in
  (forall k v, nth_error (delivered t) k = Some v -> seq_word (2 ^ w) (accepted t) k = Some v) /\ out_stable t.
Proof. exact (fun H => conj (rb_order w r0 m a b c is H) (rb_stable w r0 m a b c is)). Qed.
Print Assumptions C58_reorder.
(** If the next word of the sequence has been accepted and the consumer is ready, it comes within four cycles. *)
Theorem C58_reorder_live (A : Type) (w : nat) (r0 : nat * A) (m : nat -> A) (a b c : A) (is js : list (rb_in A)) :
  Forall (fun i => bi_id i < 2 ^ w) is ->
  let t := map rb_obs (trace (rb_step w) (rb_init r0 m a b c) is) in
  seq_word (2 ^ w) (accepted t) (length (delivered t)) <> None ->
  length js = 4 -> Forall (fun i => bi_rd i = true) js ->
  length (delivered t) < length (delivered (map rb_obs (trace (rb_step w) (rb_init r0 m a b c) (is ++ js)))).
Proof. exact (rb_live w r0 m a b c is js). Qed.
Print Assumptions C58_reorder_live.
(** word 1 came before word 0, and a second word 0 is already accepted *)
Example C58_example : let t := map rb_obs (trace (rb_step 1) (rb_init (0, 0) (fun _ => 7) 0 0 0) ex_rb_in) in
  Forall (fun i => bi_id i < 2) ex_rb_in /\ accepted t = [(1, 11); (0, 10); (0, 20)] /\ delivered t = [10] /\
  seq_word 2 (accepted t) 1 = Some 11 /\ seq_word 2 (accepted t) 2 = Some 20.
Proof. exact ex_rb. Qed.
