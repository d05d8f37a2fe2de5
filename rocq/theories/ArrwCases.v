(** Concrete runs of ArrayBuff_writer. *)
From Verif Require Import Base ArrwModel ArrwSpec.
(** cycle 0 writes the base address 0x40; then items come in and everything is accepted *)
Definition go (base n : nat) : list (aw_in nat) :=
  mk_ai false 0 true true false false true base :: map (fun k => mk_ai true (100 + k) true true true true false 0) (seq 0 n).
(** the request channel stalls, the buffer is full before it is sent; two words are stalled *)
Definition slow (base n : nat) : list (aw_in nat) :=
  mk_ai false 0 true true false false true base :: map (fun k => mk_ai true (100 + k) (Nat.eqb (k mod 4) 3) (negb (Nat.eqb (k mod 7) 2)) (Nat.eqb (k mod 3) 0) true false 0) (seq 0 n).
Definition servesb (t : list (aw_in nat * aw_out nat)) : bool :=
  forallb (fun c => implb (o_reqv (snd c)) (i_reqrd (fst c)) && implb (o_wv (snd c)) (i_wrdy (fst c)) && implb (o_ackrd (snd c)) (i_ackv (fst c) && i_ackid (fst c))) t.
Lemma servesb_ok t : servesb t = true -> serves t.
Proof.
  intros H. apply Forall_forall. intros c Hc. unfold servesb in H. rewrite forallb_forall in H. specialize (H c Hc). rewrite !andb_true_iff in H. destruct H as [[H1 H2] H3].
  split; [|split]; intros E; [rewrite E in H1; exact H1|rewrite E in H2; exact H2|rewrite E in H3; apply andb_true_iff; exact H3].
Qed.
