(** C65: Axi4SlaveTimeout. *)
From Verif Require Import Base TimeoutModel TimeoutSpec TimeoutProofs.

(** A read request accepted while no timer runs and not answered at once: for TIMEOUT - 1 cycles the response channel is that of
    the slave; in the next cycle, TIMEOUT cycles after the request, the error response with the id of the request is offered and
    the component is idle again.
    Missing: that the error is only given if the slave has not answered, and that it is kept until taken, see below. *)
Theorem C65_timeout_read_partial (P : Type) (T : nat) (s : to_st) (i : to_in P) (js : list (to_in P)) (k : to_in P) :
  to_ok T = true -> t_pend s = false -> ti_start i = true -> ti_rsp i = None -> length js = T - 1 ->
  Forall passes (trace (tor_step T) s (i :: js)) /\
  snd (tor_step T (final (tor_step T) s (i :: js)) k) = mk_too (Some (TimeoutRsp (ti_id i))) true /\
  t_pend (fst (tor_step T (final (tor_step T) s (i :: js)) k)) = false.
Proof. exact (fun H => tor_timeout T H s i js k). Qed.
Print Assumptions C65_timeout_read_partial.
(** The same for writes: the timer starts at the last data word, the id is that of the last accepted address. *)
Theorem C65_timeout_write_partial (P : Type) (T : nat) (s : to_st) (i : to_in P) (js : list (to_in P)) (k : to_in P) :
  to_ok T = true -> t_pend s = false -> ti_start i = true -> ti_rsp i = None -> length js = T - 1 ->
  Forall (fun j => ti_ida j = false) js ->
  Forall passes (trace (tow_step T) s (i :: js)) /\
  snd (tow_step T (final (tow_step T) s (i :: js)) k) = mk_too (Some (TimeoutRsp (if ti_ida i then ti_id i else t_id s))) true /\
  t_pend (fst (tow_step T (final (tow_step T) s (i :: js)) k)) = false.
Proof. exact (fun H => tow_timeout T H s i js k). Qed.
Print Assumptions C65_timeout_write_partial.
Example C65_example : to_ok 4096 = true /\ to_ok 4 = true /\ to_ok 5 = false /\ t_pend (to_init 4 0) = false /\
  length (repeat (mk_toi (P := nat) false false 0 None true) 3) = 4 - 1.
Proof. repeat split. Qed.
(** The pending flag is not cleared by the response of the slave: the master gets more responses than it made requests although the
    slave answers each request once, at once. *)
Theorem C65_timeout_read_refuted : exists is : list (to_in nat), slave_obeys (trace (tor_step 4) (to_init 4 0) is) /\
  n_req (trace (tor_step 4) (to_init 4 0) is) < n_rsp (trace (tor_step 4) (to_init 4 0) is).
Proof. exact tor_count_refuted. Qed.
Print Assumptions C65_timeout_read_refuted.
Theorem C65_timeout_write_refuted : exists is : list (to_in nat), slave_obeys (trace (tow_step 4) (to_init 4 0) is) /\
  n_req (trace (tow_step 4) (to_init 4 0) is) < n_rsp (trace (tow_step 4) (to_init 4 0) is).
Proof. exact tow_count_refuted. Qed.
Print Assumptions C65_timeout_write_refuted.
(** The error response is withdrawn after one cycle if the master is not ready; with a silent slave it never gets a response. *)
Theorem C65_timeout_stable_refuted : exists is : list (to_in nat), (forall c, In c is -> ti_rsp c = None) /\
  ~ rsp_stable (trace (tor_step 4) (to_init 4 0) is) /\ n_rsp (trace (tor_step 4) (to_init 4 0) is) = 0.
Proof. exact to_stable_refuted. Qed.
Print Assumptions C65_timeout_stable_refuted.
Example C65_wrong : let t := trace (tor_step 4) (to_init 4 0) ex_to in
  slave_obeys t /\ n_req t = 1 /\ n_slave t = 1 /\ n_rsp t = 2.
Proof. exact tor_bad. Qed.
