From Verif Require Import Base BaseFacts StreamSpec StreamFacts BcdModel BcdSpec BcdProofs.
Local Open Scope N_scope.

(** C27: one result per accepted value, its decimal digits; a result stays until it is taken.
    D = DECIMAL_DIGITS is any number of digits which is large enough. *)
Theorem C27_bin_to_bcd : forall (W D : nat) (bin0 : N) (is : list (bcd_in N)),
  (1 <= W)%nat -> 2 ^ N.of_nat W <= 10 ^ N.of_nat D ->
  (forall i, In i is -> bi_vld i = true -> bi_data i < 2 ^ N.of_nat W) ->
  let t := map bcd_obs (trace (b2b_step W) (b2b_init D bin0) is) in
  one_to_one (decimal D) t /\ out_stable t.
Proof. exact c27. Qed.
Print Assumptions C27_bin_to_bcd.
Example C27_case : let t := map bcd_obs (trace (b2b_step 8) (b2b_init 3 0) ex27) in
  accepted t = [251; 99; 99] /\ delivered t = [[1; 5; 2]; [9; 9; 0]] /\ 2 ^ 8 <= 10 ^ 3.
Proof. vm_compute. repeat split. discriminate. Qed.

(** C27: the result of a value accepted in cycle 0 is offered first in cycle W + 1. *)
Theorem C27_bin_to_bcd_latency : forall (W D : nat) (bin0 : N) (is : list (bcd_in N)) (i : bcd_in N) (js : list (bcd_in N)) (k : bcd_in N),
  (1 <= W)%nat -> 2 ^ N.of_nat W <= 10 ^ N.of_nat D ->
  (forall j, In j (is ++ [i]) -> bi_vld j = true -> bi_data j < 2 ^ N.of_nat W) ->
  let s := final (b2b_step W) (b2b_init D bin0) is in
  bi_vld i = true -> bo_rd (snd (b2b_step W s i)) = true -> length js = W ->
  let t := map bcd_obs (trace (b2b_step W) s ([i] ++ js ++ [k])) in
  (forall n c, nth_error t n = Some c -> (out_vld c = true <-> n = S W)) /\
  (forall c, nth_error t (S W) = Some c -> decimal D (bi_data i) (out_data c)).
Proof. exact c27_latency. Qed.
Print Assumptions C27_bin_to_bcd_latency.
Example C27_latency_case : map (@out_vld _ _) (map bcd_obs (trace (b2b_step 4) (b2b_init 2 0) (repeat (mk_bi true 13 true) 7)))
  = [false; false; false; false; false; true; false].
Proof. reflexivity. Qed.

(** C28: one result per accepted vector of digits, its decimal value. *)
Theorem C28_bcd_to_bin : forall (D : nat) (is : list (bcd_in (list N))),
  (1 <= D)%nat ->
  (forall i, In i is -> bi_vld i = true -> length (bi_data i) = D /\ Forall (fun d => d <= 9) (bi_data i)) ->
  let t := map bcd_obs (trace (d2b_step D) (d2b_init D) is) in
  one_to_one (fun ds v => v = dec_value ds) t /\ out_stable t.
Proof. exact c28. Qed.
Print Assumptions C28_bcd_to_bin.
Example C28_case : let t := map bcd_obs (trace (d2b_step 3) (d2b_init 3) ex28) in
  accepted t = [[1; 5; 2]; [7; 0; 0]; [7; 0; 0]] /\ delivered t = [251; 7].
Proof. vm_compute. split; reflexivity. Qed.

(** C28: the result of a word accepted in cycle 0 is offered first in cycle MAX_COUNT + 2. *)
Theorem C28_bcd_to_bin_latency : forall (D : nat) (is : list (bcd_in (list N))) (i : bcd_in (list N)) (js : list (bcd_in (list N))) (k : bcd_in (list N)),
  (1 <= D)%nat ->
  (forall j, In j (is ++ [i]) -> bi_vld j = true -> length (bi_data j) = D /\ Forall (fun d => d <= 9) (bi_data j)) ->
  let s := final (d2b_step D) (d2b_init D) is in
  bi_vld i = true -> bo_rd (snd (d2b_step D s i)) = true -> length js = (d2b_width D + 1)%nat ->
  let t := map bcd_obs (trace (d2b_step D) s ([i] ++ js ++ [k])) in
  (forall n c, (1 <= n)%nat -> nth_error t n = Some c -> (out_vld c = true <-> n = d2b_width D + 2)%nat) /\
  (forall c, nth_error t (d2b_width D + 2) = Some c -> out_data c = dec_value (bi_data i)).
Proof. exact c28_latency. Qed.
Print Assumptions C28_bcd_to_bin_latency.
Example C28_latency_case : map (@out_vld _ _) (map bcd_obs (trace (d2b_step 1) (d2b_init 1) (repeat (mk_bi true [7] true) 8)))
  = [false; false; false; false; false; false; true; false].
Proof. reflexivity. Qed.
