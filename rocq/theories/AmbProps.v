(** C126, C127: AvalonMmBuff. *)
From Verif Require Import Base StreamSpec AmbModel AmbSpec AmbProofs AmbCases.

(** The slave gets exactly the requests which were accepted, in order; at most max(1, DATA_BUFF_DEPTH) are inside and a request under waitRequest does not change. *)
Theorem C126_requests : forall (P D R : Type) AB DB (m1 : nat -> rq P) x1 (m2 : nat -> D) x2 (m3 : nat -> R) x3 (is : list (amb_in P D R)),
  params_ok AB DB -> let t := map rq_obs (trace (amb_step DB) (amb_init AB DB m1 x1 m2 x2 m3 x3) is) in
  queue_law (Nat.max 1 DB) [] t /\ out_stable t.
Proof. exact @amb_requests. Qed.
Print Assumptions C126_requests.
(** The master does not wait when nothing is inside, and a request inside is offered to the slave within one cycle. *)
Theorem C126_offer : forall (P D R : Type) AB DB (m1 : nat -> rq P) x1 (m2 : nat -> D) x2 (m3 : nat -> R) x3 (is : list (amb_in P D R)) (i j : amb_in P D R),
  params_ok AB DB -> let s0 := amb_init AB DB m1 x1 m2 x2 m3 x3 in let t := map rq_obs (trace (amb_step DB) s0 is) in let s := final (amb_step DB) s0 is in
  (delivered t = accepted t -> b_wait (snd (amb_step DB s i)) = false) /\
  (delivered t <> accepted t ->
     asks (b_rq (snd (amb_step DB s i))) && negb (a_wait i) = true \/ asks (b_rq (snd (amb_step DB (fst (amb_step DB s i)) j))) = true).
Proof. exact @amb_offer. Qed.
Print Assumptions C126_offer.
Example C126_witness : params_ok 2 3 /\ params_ok 1 1 /\
  accepted (map rq_obs (trace (amb_step 3) (b0 2 3) mixed)) = [(true, false, 5); (false, true, 6); (false, true, 6)] /\
  delivered (map rq_obs (trace (amb_step 3) (b0 2 3) mixed)) = [(true, false, 5); (false, true, 6); (false, true, 6)] /\
  accepted (map rq_obs (trace (amb_step 1) (b0 1 1) mixed)) = [(true, false, 5); (false, true, 6)] /\
  delivered (map rq_obs (trace (amb_step 1) (b0 1 1) mixed)) = [(true, false, 5); (false, true, 6)].
Proof. unfold params_ok. repeat split; [lia|lia|..]; vm_compute; reflexivity. Qed.

(** With DATA_BUFF_DEPTH = 2 the second of two consecutive words of a read is lost. *)
Theorem C127_back_to_back_refuted : exists is : list bin, let t := trace (amb_step 2) (b0 1 2) is in
  flat_map (fun c => match rd_m c with Some x => [x] | None => [] end) t = [7; 8] /\ flat_map (fun c => match rd_s c with Some x => [x] | None => [] end) t = [7] /\
  forallb (fun c => negb (b_rv (snd c))) (skipn 3 t) = true /\ 18 <= length (skipn 3 t).
Proof. exists two_words. cbv zeta. split; [vm_compute; reflexivity|]. split; [vm_compute; reflexivity|]. split; [vm_compute; reflexivity|]. vm_compute. lia. Qed.
Print Assumptions C127_back_to_back_refuted.
(** With each other depth the master gets in each cycle exactly the answer which the slave gave one (depth 1) or two cycles before. *)
Theorem C127_answers_partial : forall (P D R : Type) AB DB (m1 : nat -> rq P) x1 (m2 : nat -> D) x2 (m3 : nat -> R) x3 (is : list (amb_in P D R)),
  DB = 1 \/ 3 <= DB -> let t := trace (amb_step DB) (amb_init AB DB m1 x1 m2 x2 m3 x3) is in
  delayed (delay_of DB) (map rd_m t) (map rd_s t) /\ delayed (delay_of DB) (map wr_m t) (map wr_s t).
Proof. exact @amb_answers. Qed.
Print Assumptions C127_answers_partial.
Example C127_witness :
  map rd_s (trace (amb_step 3) (b0 2 3) mixed) = [None; None; None; Some 7; Some 8; None; None] /\
  map wr_s (trace (amb_step 3) (b0 2 3) mixed) = [None; None; None; None; None; Some 2; None] /\
  map rd_s (trace (amb_step 1) (b0 1 1) mixed) = [None; None; Some 7; Some 8; None; None; None].
Proof. vm_compute. auto. Qed.
