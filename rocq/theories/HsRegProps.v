(** Properties C06-C07. *)
From Verif Require Import Base BaseFacts StreamSpec StreamFacts HsRegModel HsRegSpec HsRegProofs HsRegPropsAux.

(** C06: HandshakedReg is a queue for every buildable LATENCY/DELAY. [x] is the undefined
    value driven on dataOut.data while dataOut.vld is low. *)
Theorem C06_hs_reg_is_queue :
  forall (A : Type) (x : A) (l : latency) (delay : nat) (d0 : nat -> A) (s : hsreg A) (is : list (hsr_in A)),
    hsreg_init l delay [] d0 = Some s ->
    let t := map hsr_obs (trace (hsreg_step x) s is) in
    queue_law (latency_cap l) [] t /\ out_stable t.
Proof. exact @c06. Qed.
Print Assumptions C06_hs_reg_is_queue.

(** The parameters for which the component can be built. *)
Example C06_buildable :
  (forall n, 1 <= n -> exists s, hsreg_init (A:=nat) (LInt n) 0 [] (fun _ => 0) = Some s) /\
  (exists s, hsreg_init (A:=nat) (LInt 2) 1 [] (fun _ => 0) = Some s) /\
  (exists s, hsreg_init (A:=nat) LBreak 0 [] (fun _ => 0) = Some s).
Proof.
  repeat split; try (eexists; reflexivity).
  intros n Hn. unfold hsreg_init. simpl. destruct n; [lia|]. eexists. reflexivity.
Qed.

Example C06_case :
  match hsreg_init (LInt 2) 0 [] (fun _ => 0), hsreg_init (LInt 2) 1 [] (fun _ => 0),
        hsreg_init LBreak 0 [] (fun _ => 0) with
  | Some a, Some b, Some c =>
      let f s := let t := map hsr_obs (trace (hsreg_step 0) s c06_hist) in (accepted t, delivered t) in
      f a = ([1; 2; 4], [1; 2]) /\ f b = ([1; 2; 4], [1]) /\ f c = ([1; 2; 4], [1; 2])
  | _, _, _ => False
  end.
Proof. vm_compute. repeat split. Qed.

(** C06: for DELAY=0 with a consumer which is always ready the input is never stalled and each
    word appears exactly LATENCY cycles later (1 for LATENCY=(1,2)); the output is idle exactly
    LATENCY cycles after the input was idle. *)
Theorem C06_hs_reg_latency :
  forall (A : Type) (x : A) (l : latency) (d0 : nat -> A) (s : hsreg A) (js : list (hsr_in A)) (k : nat) (i : hsr_in A),
    hsreg_init l 0 [] d0 = Some s ->
    (forall j, In j js -> ri_rd j = true) ->
    nth_error js k = Some i -> k + latency_of l < length js ->
    exists o, nth_error (outs (hsreg_step x) s js) (k + latency_of l) = Some o /\
      ro_vld o = ri_vld i /\ (ri_vld i = true -> ro_data o = ri_data i).
Proof. exact @c06_lat. Qed.
Print Assumptions C06_hs_reg_latency.

Theorem C06_hs_reg_full_throughput :
  forall (A : Type) (x : A) (l : latency) (d0 : nat -> A) (s : hsreg A) (js : list (hsr_in A)),
    hsreg_init l 0 [] d0 = Some s ->
    (forall j, In j js -> ri_rd j = true) ->
    forall o, In o (outs (hsreg_step x) s js) -> ro_rd o = true.
Proof. exact @c06_rd. Qed.
Print Assumptions C06_hs_reg_full_throughput.

Example C06_latency_case :
  match hsreg_init (LInt 3) 0 [] (fun _ => 0) with
  | Some a => forallb (fun j : hsr_in nat => ri_rd j) c06_ready_hist = true /\
      map (fun o => (ro_vld o, ro_data o)) (outs (hsreg_step 0) a c06_ready_hist)
        = [(false, 0); (false, 0); (false, 0); (true, 1); (false, 1); (true, 2)]
  | None => False
  end.
Proof. vm_compute. split; reflexivity. Qed.

(** C07 (part): with INIT_DATA for every stage (one word for LATENCY=(1,2)) the register starts
    with these words and delivers nothing else, but in reversed order. *)
Theorem C07_hs_reg_full_init_partial :
  forall (A : Type) (x : A) (l : latency) (delay : nat) (init : list A) (d0 : nat -> A) (s : hsreg A) (is : list (hsr_in A)),
    hsreg_init l delay init d0 = Some s ->
    length init = latency_of l ->
    let t := map hsr_obs (trace (hsreg_step x) s is) in
    queue_law (latency_cap l) (rev init) t /\ out_stable t.
Proof. exact @c07. Qed.
Print Assumptions C07_hs_reg_full_init_partial.

Example C07_case :
  match hsreg_init (LInt 2) 1 [5; 6] (fun _ => 0) with
  | Some a => let t := map hsr_obs (trace (hsreg_step 0) a (rd_cycles 4)) in delivered t = [6; 5]
  | None => False
  end.
Proof. vm_compute. reflexivity. Qed.

(** C07 (finding): the words of INIT_DATA leave in reversed order. *)
Theorem C07_hs_reg_init_order_refuted :
  exists s, hsreg_init (LInt 2) 0 [7; 8] (fun _ => 0) = Some s /\
    let t := map hsr_obs (trace (hsreg_step 0) s (rd_cycles 3)) in
    accepted t = [] /\ delivered t = [8; 7].
Proof. exact c07_order. Qed.
Print Assumptions C07_hs_reg_init_order_refuted.

(** C07 (finding): with fewer INIT_DATA words than stages an undefined register content
    is delivered as if it was a word. *)
Theorem C07_hs_reg_partial_init_refuted :
  forall d0 : nat -> nat, exists s, hsreg_init (LInt 2) 0 [7] d0 = Some s /\
    let t := map hsr_obs (trace (hsreg_step 0) s (rd_cycles 3)) in
    accepted t = [] /\ delivered t = [d0 1; 7].
Proof. exact c07_spurious. Qed.
Print Assumptions C07_hs_reg_partial_init_refuted.
