(** C170: Axi4SFifoDrop *)
From Verif Require Import Base FifoDropModel AfdModel AfdSpec AfdProofs.

(** dataOut has exactly the words of finished frames which were not discarded, in order; at most DEPTH + 1 words are inside.
    Missing here and in the next two theorems: a discard in a clock where dataOut is not blocked or together with the last word; the former may lock the input, see below *)
Theorem C170_frames_partial : forall (A : Type) (x : A * bool) (D : nat) (m0 : nat -> A * bool) (d0 : A * bool) (ins : list (afi A)), 0 < D ->
  let t := trace (af_step x D) (af_init D m0 d0) ins in Forall calm t ->
  exists rest, fst (keep t) = sent t ++ rest /\ length rest + length (snd (keep t)) <= D + 1.
Proof. exact @frames. Qed.
Print Assumptions C170_frames_partial.

(** a valid word is accepted exactly when the memory is not full; it holds kept words which are neither sent nor on dataOut, and the current frame *)
Theorem C170_accept_partial : forall (A : Type) (x : A * bool) (D : nat) (m0 : nat -> A * bool) (d0 : A * bool) (ins : list (afi A)) (i : afi A), 0 < D ->
  let t := trace (af_step x D) (af_init D m0 d0) ins in let o := snd (af_step x D (final (af_step x D) (af_init D m0 d0) ins) i) in Forall calm t ->
  (fo_in o = true <-> f_in i <> None /\ length (fst (keep t)) - length (sent t) - (if fo_vld o then 1 else 0) + length (snd (keep t)) <> D).
Proof. exact @accepts. Qed.
Print Assumptions C170_accept_partial.

(** if a kept word was not sent yet then dataOut is valid in this or in the next clock *)
Theorem C170_progress_partial : forall (A : Type) (x : A * bool) (D : nat) (m0 : nat -> A * bool) (d0 : A * bool) (ins : list (afi A)) (i j : afi A), 0 < D ->
  let step := af_step x D in let t := trace step (af_init D m0 d0) ins in let s := final step (af_init D m0 d0) ins in Forall calm t ->
  length (sent t) < length (fst (keep t)) -> fo_vld (snd (step s i)) = true \/ fo_vld (snd (step (fst (step s i)) j)) = true.
Proof. exact @progress. Qed.
Print Assumptions C170_progress_partial.

(** a single discard after two frames of one word: all words were sent, nothing is inside, and no word is accepted any more until another discard *)
Theorem C170_lockup_refuted : exists ins : list (afi nat), let step := af_step (0, false) 2 in let s0 := af_init 2 (fun _ => (0, false)) (0, false) in let t := trace step s0 ins in
  keep t = (sent t, []) /\ forall js, Forall (fun j => f_disc j = false) js -> Forall (fun o => fo_in o = false) (outs step (final step s0 ins) js).
Proof. exact lock. Qed.
Print Assumptions C170_lockup_refuted.

(** the hypotheses are met: the second frame is discarded while the output waits *)
Example C170_case :
  let ins := [mk_afi (Some (1, true)) false false; mk_afi (Some (2, false)) false false; mk_afi (Some (3, false)) true false; mk_afi (Some (4, false)) false true;
              mk_afi (Some (5, true)) false true; mk_afi None false true; mk_afi None false true; mk_afi None false true] in
  let t := trace (af_step (0, false) 3) (af_init 3 (fun _ => (0, false)) (0, false)) ins in
  0 < 3 /\ Forall calm t /\ sent t = [(1, true); (4, false); (5, true)] /\ keep t = (sent t, []).
Proof.
  cbv zeta. split; [lia|]. split; [|vm_compute; auto].
  match goal with |- Forall calm ?u => let v := eval vm_compute in u in change u with v end.
  repeat (apply Forall_cons; [unfold calm; cbn; intros H; try discriminate H; repeat split; intros w [= <-]; reflexivity|]). apply Forall_nil.
Qed.
