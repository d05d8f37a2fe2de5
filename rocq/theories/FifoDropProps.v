From Verif Require Import Base FifoModel FifoDropModel FifoDropSpec FifoDropPropsAux.

(** C19 for environments which never read in a cycle with discard (and never assert en against wait).
    Missing: environments which read in a cycle with discard (false, see the next theorem). *)
Theorem C19_fifodrop_transactional_partial :
  forall (A : Type) (DEPTH : nat) (m0 : nat -> A) (d0 : A) (is : list (fd_in A)),
    0 < DEPTH ->
    let t := trace (fd_step DEPTH) (fd_init DEPTH m0 d0) is in
    (forall c, In c t -> fd_polite c /\ no_read_on_discard c) -> fd_law DEPTH t.
Proof. exact c19. Qed.
Print Assumptions C19_fifodrop_transactional_partial.

Example C19_nonvacuous :
  let t := trace (fd_step 3) (fd_init 3 (fun _ => 0) 0) c19_hist in
  (forall c, In c t -> fd_polite c /\ no_read_on_discard c) /\
  committed t = [1; 2; 4; 5] /\ fd_got t = [1; 2; 4; 5] /\ map (fun c => fo_size (snd c)) t = [0; 1; 2; 1; 2; 1; 2; 1; 2; 1; 0].
Proof.
  cbv zeta. split; [|repeat split; vm_compute; reflexivity].
  intros c Hc. split; revert c Hc; [apply all_polite|apply all_nrd]; vm_compute; reflexivity.
Qed.

(** The full C19 is false: a read of the last memory cell in the cycle of a discard breaks the law... *)
Theorem C19_read_with_discard_refuted :
  exists is : list (fd_in nat),
    let t := trace (fd_step 2) (fd_init 2 (fun _ => 0) 0) is in
    (forall c, In c t -> fd_polite c) /\ ~ fd_law 2 t.
Proof. exact c19_ref. Qed.
Print Assumptions C19_read_with_discard_refuted.

(** ... by locking the writer of an empty fifo out: as long as there is no other discard
    dataIn.wait and dataOut.wait both stay 1, whatever the (polite) environment does. *)
Theorem C19_lockup_refuted :
  exists is : list (fd_in nat),
    (let t := trace (fd_step 2) (fd_init 2 (fun _ => 0) 0) is in
     (forall c, In c t -> fd_polite c) /\ readable t = 0 /\ in_flight t = []) /\
    forall js c, In c (skipn (length is) (trace (fd_step 2) (fd_init 2 (fun _ => 0) 0) (is ++ js))) ->
      (forall c', In c' (trace (fd_step 2) (fd_init 2 (fun _ => 0) 0) (is ++ js)) -> fd_polite c') ->
      (forall j, In j js -> fi_discard j = false) ->
      fo_wwait (snd c) = true /\ fo_rwait (snd c) = true.
Proof. exact c19_lock. Qed.
Print Assumptions C19_lockup_refuted.

(** The space output does not count stored words: full fifo, space = DEPTH. *)
Theorem C19_space_output_refuted :
  exists (is : list (fd_in nat)) (i : fd_in nat),
    let s0 := fd_init 2 (fun _ => 0) 0 in
    let t := trace (fd_step 2) s0 is in
    (forall c, In c t -> fd_polite c /\ no_read_on_discard c) /\
    readable t + length (in_flight t) = 2 /\
    fo_space (snd (fd_step 2 (final (fd_step 2) s0 is) i)) = 2.
Proof. exact c19_space. Qed.
Print Assumptions C19_space_output_refuted.
