(** C156 - what the buffers of endpoints of a USB device give to the host. *)
From Verif Require Import Base FifoCopyModel FifoCopySpec EpbModel EpbSpec EpbProofs EpbCases.

Theorem C156_sent_partial : forall (D : Type) chs m0 d0 (is : list (ep_in D)), eps_ok chs ->
  (forall e B M, In (e, Some (B, M)) chs -> ep_law e (trace (ep_step chs) (ep_init chs m0 d0) is)) /\
  (forall e, In (e, None) chs -> ep_direct e (trace (ep_step chs) (ep_init chs m0 d0) is)).
Proof.
  exact (fun D chs m0 d0 is O => conj (fun e B M I => binv_law chs O e B M I m0 d0 is) (fun e I => direct_run chs O e is _ I)).
Qed.

Theorem C156_progress : forall (D : Type) chs e B M m0 d0 (is : list (ep_in D)) i j, eps_ok chs -> In (e, Some (B, M)) chs ->
  0 < waiting e (trace (ep_step chs) (ep_init chs m0 d0) is) ->
  ep_talk e i = true -> ei_rd i = true -> ep_talk e j = true -> ei_rd j = true ->
  length (ep_sent e (trace (ep_step chs) (ep_init chs m0 d0) is)) < length (ep_sent e (trace (ep_step chs) (ep_init chs m0 d0) (is ++ [i; j]))).
Proof. exact (fun D chs e B M m0 d0 is i j O I => binv_progress chs O e B M I m0 d0 is i j). Qed.

(** when all whole packets were sent, the endpoint takes the words of a packet which is at least two words shorter than the buffer *)
Theorem C156_taken : forall (D : Type) chs e B M m0 d0 (is : list (ep_in D)) i, eps_ok chs -> In (e, Some (B, M)) chs ->
  waiting e (trace (ep_step chs) (ep_init chs m0 d0) is) = 0 -> open_frame (ep_acc e (trace (ep_step chs) (ep_init chs m0 d0) is)) < B - 2 ->
  eo_rd (snd (ep_step chs (final (ep_step chs) (ep_init chs m0 d0) is) i)) e = true.
Proof. exact (fun D chs e B M m0 d0 is i O I => takes_ready chs O e B M I m0 d0 is i). Qed.

Theorem C156_stall : forall (D : Type) chs (s : ep_st D) i, eo_stall (snd (ep_step chs s i)) = true <-> ~ In (ei_endp i) (map fst chs).
Proof. exact (fun D chs s i => stalls chs s i). Qed.

(** a packet which the host did not get is not sent again *)
Theorem C156_again_refuted : exists chs (m0 : nat -> nat -> cword nat unit) d0 is, eps_ok chs /\ In (1, Some (8, 4)) chs /\
  ~ ep_again 1 (trace (ep_step chs) (ep_init chs m0 d0) is).
Proof. exact again_bad. Qed.

(** a packet of the maximal size does not fit in a buffer of that size and blocks the endpoint for ever *)
Theorem C156_long_refuted : exists chs e B M (m0 : nat -> nat -> cword nat unit) d0 is, eps_ok chs /\ In (e, Some (B, M)) chs /\ M <= B /\
  length (ep_acc e (trace (ep_step chs) (ep_init chs m0 d0) is)) < M /\
  forall js, let t := trace (ep_step chs) (ep_init chs m0 d0) (is ++ js) in
    ep_acc e t = ep_acc e (trace (ep_step chs) (ep_init chs m0 d0) is) /\ ep_sent e t = [].
Proof. exact long_bad. Qed.

Print Assumptions C156_sent_partial. Print Assumptions C156_progress. Print Assumptions C156_taken. Print Assumptions C156_stall. Print Assumptions C156_again_refuted.
Print Assumptions C156_long_refuted.

(** The first packet is offered after its last word was taken; endpoint 0 is passed. *)
Example C156_nontrivial :
  eps_ok eb_chs /\ map (option_map cw_data) (ep_sent 1 (trace (ep_step eb_chs) eb_init eb_run)) = [Some 10; Some 11; Some 12] /\
  map (fun c => eo_v (snd c)) (trace (ep_step eb_chs) eb_init eb_run) = [false; false; false; false; false; true; true; true; true; false; false] /\
  map (option_map cw_data) (ep_sent 0 (trace (ep_step eb_chs) eb_init eb_run)) = [Some 5].
Proof. split; [exact eb_ok|]. repeat split; lazy; reflexivity. Qed.
Example C156_progress_nontrivial : waiting 1 (trace (ep_step eb_chs) eb_init eb_wait) = 1 /\
  length (ep_sent 1 (trace (ep_step eb_chs) eb_init (eb_wait ++ [eb_talk 1; eb_talk 1]))) = 1.
Proof. split; lazy; reflexivity. Qed.
Example C156_taken_nontrivial : waiting 1 (trace (ep_step eb_chs) eb_init [eb_give 1 1 false; eb_give 1 2 false]) = 0 /\
  open_frame (ep_acc 1 (trace (ep_step eb_chs) eb_init [eb_give 1 1 false; eb_give 1 2 false])) = 2.
Proof. split; lazy; reflexivity. Qed.
Example C156_stall_nontrivial : eo_stall (snd (ep_step eb_chs eb_init (eb_talk 2))) = true /\ eo_stall (snd (ep_step eb_chs eb_init (eb_talk 3))) = false.
Proof. split; lazy; reflexivity. Qed.
