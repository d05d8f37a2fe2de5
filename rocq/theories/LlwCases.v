(** Example data for CLinkedListWriter. *)
From Verif Require Import Base LlwModel LlwSpec.

(** next pointers of blocks of 5 words of 8 bytes: 64 -> 256 -> 512 *)
Definition nexts (a : nat) : nat := if a =? 104 then 256 else if a =? 296 then 512 else 0.
(** a block of 6 words at 64 whose next pointer (at 112) is 256 *)
Definition nexts6 (a : nat) : nat := if a =? 112 then 256 else 0.
Section Play.
  Variable nexts : nat -> nat.
  Variables CAP ITEMS AW DW PW TIMEOUT : nat.
  (** a datapump which takes requests at once, words if [w_ok], acknowledges a complete request in the next cycle and answers reads of next pointers; items 100, 101... are offered if [i_ok], rdPtr is written with [space] in the cycle 2 *)
  Fixpoint wplay (w_ok i_ok : nat -> bool) (space n k m due : nat) (open : bool) (rd : option nat) (s : w_st nat) : list (w_in nat) :=
    match n with
    | 0 => []
    | S n =>
        let i := mk_wi (i_ok k) (100 + m) true (w_ok k) (open && (due =? 0)) true true (match rd with Some _ => true | None => false end) true (match rd with Some a => nexts a | None => 0 end)
                       (if k =? 0 then Some 64 else None) (if k =? 2 then Some space else None) None in
        let so := w_step CAP ITEMS AW DW PW TIMEOUT s i in let o := snd so in
        i :: wplay w_ok i_ok space n (S k) (if i_ok k && f_r o then S m else m)
                   (due + (if f_qv o then S (f_ql o) else 0) - (if f_wv o && w_ok k then 1 else 0))
                   (if f_qv o then true else if open && (due =? 0) && f_ar o then false else open) (if f_rqv o then Some (f_rqa o) else None) (fst so)
    end.
End Play.
Definition yes (_ : nat) : bool := true.
Definition winit CAP ITEMS PW TIMEOUT : w_st nat := w_init CAP ITEMS PW TIMEOUT (fun _ => 0) 0 0 0 0.
(** space for 5 items: one block; space for 12 items *)
Definition wrun1 : list (w_in nat) := wplay nexts 4 5 10 64 4 20 yes yes 5 70 0 0 0 false None (winit 4 5 4 20).
Definition wrun2 : list (w_in nat) := wplay nexts 4 5 10 64 4 20 yes yes 12 70 0 0 0 false None (winit 4 5 4 20).
(** the last word of the first request is not taken in the cycle 7 *)
Definition wrun3 : list (w_in nat) := wplay nexts 4 5 10 64 4 20 (fun k => negb (k =? 7)) yes 5 9 0 0 0 false None (winit 4 5 4 20).
(** one item only, TIMEOUT = 5 *)
Definition wrun5 : list (w_in nat) := wplay nexts 4 5 10 64 4 5 yes (fun k => k =? 4) 5 17 0 0 0 false None (winit 4 5 4 5).
Definition wrun4 : list (w_in nat) := wplay nexts6 4 6 10 64 4 20 yes yes 12 70 0 0 0 false None (winit 4 6 4 20).

Section Check.
  Fixpoint acks_okb (q w n : nat) (t : list (w_in nat * w_out nat)) : bool :=
    match t with
    | [] => true
    | c :: t' => (negb (ack_now (fst c)) || ((w =? q) && (0 <? n))) &&
                 acks_okb (q + w_asked [c]) (w + length (w_words [c])) (n + length (w_reqs [c]) - if ack_now (fst c) && f_ar (snd c) then 1 else 0) t'
    end.
  Fixpoint w_fitsb (PW r k q : nat) (t : list (w_in nat * w_out nat)) : bool :=
    match t with
    | [] => true
    | c :: t' => (next_room PW r (fst c) <? k + 2 ^ PW) && w_fitsb PW (next_room PW r (fst c)) (if ack_now (fst c) then q else k) (q + w_asked [c]) t'
    end.
  Lemma acks_okb_ok t : forall q w n, acks_okb q w n t = true -> acks_ok q w n t.
  Proof.
    induction t as [|c t IH]; intros q w n; cbn [acks_okb acks_ok]; [auto|]. intros H. apply andb_true_iff in H. destruct H as [H1 H2]. split; [|apply IH; exact H2].
    intros E. rewrite E in H1. cbn in H1. apply andb_true_iff in H1. destruct H1 as [H1 H3]. split; [apply Nat.eqb_eq; exact H1|apply Nat.ltb_lt; exact H3].
  Qed.
  Lemma w_fitsb_ok PW t : forall r k q, w_fitsb PW r k q t = true -> w_fits PW r k q t.
  Proof.
    induction t as [|c t IH]; intros r k q; cbn [w_fitsb w_fits]; [auto|]. intros H. apply andb_true_iff in H. destruct H as [H1 H2]. split; [apply Nat.ltb_lt; exact H1|apply IH; exact H2].
  Qed.
  Lemma no_wr_ok (is : list (w_in nat)) : forallb (fun i => match x_wr i with None => true | _ => false end) is = true -> no_wr is.
  Proof. intros H. apply Forall_forall. intros i Hi. rewrite forallb_forall in H. specialize (H i Hi). cbn in H. destruct (x_wr i); [discriminate|reflexivity]. Qed.
  Lemma steady_ok (is : list (w_in nat)) : forallb (fun i => match x_base i with None => e_wr i && e_v i | _ => false end) is = true -> steady is.
  Proof. intros H. apply Forall_forall. intros i Hi. rewrite forallb_forall in H. specialize (H i Hi). cbn in H. destruct (x_base i); [discriminate|]. apply andb_true_iff in H. tauto. Qed.
End Check.
