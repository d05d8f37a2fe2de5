(** Properties C10-C16 and C45. *)
From Verif Require Import Base BaseFacts HsRegModel JoinSplitModel JoinSplitSpec JoinSplitProofs JoinSplitPropsAux.

(** C10: in every cycle after any history at most one input of HsJoinFairShare hands over a word;
    exactly then the output hands over that word and selectedOneHot marks the input. *)
Theorem C10_join_fair_one_at_a_time :
  forall (A : Type) (x : A) (n : nat) (is : list (join_in A)) (i : join_in A),
    0 < n -> nin i = n ->
    let o := snd (join_fair x (final (join_fair x) (prio_init n) is) i) in
    (forall k j, in_moves i o k -> in_moves i o j -> k = j) /\
    (forall k d, in_moves i o k -> in_word i k d -> out_moves i o /\ j_data o = d /\
        j_sel o = onehot n k /\ j_sel_vld o = true) /\
    (out_moves i o -> exists k, in_moves i o k) /\
    (j_vld o = true <-> exists k d, in_word i k d).
Proof. exact @c10. Qed.
Print Assumptions C10_join_fair_one_at_a_time.

(** C10: an input offering a word during n cycles in which the consumer is ready is served. *)
Theorem C10_join_fair_is_fair :
  forall (A : Type) (x : A) (n : nat) (is js : list (join_in A)) (k : nat),
    k < n -> length js = n ->
    (forall j, In j js -> nin j = n /\ j_rd j = true /\ exists d, in_word j k d) ->
    exists m j o, nth_error js m = Some j /\
      nth_error (outs (join_fair x) (final (join_fair x) (prio_init n) is) js) m = Some o /\
      in_moves j o k.
Proof. exact @c10_fair. Qed.
Print Assumptions C10_join_fair_is_fair.

Example C10_case :
  let js := repeat (J2 (Some 1) (Some 2) true) 2 in
  map (fun o => (j_rds o, j_vld o, j_data o, j_sel o)) (outs (join_fair 0) (prio_init 2) js) =
    [([true; false], true, 1, [true; false]); ([false; true], true, 2, [false; true])].
Proof. vm_compute. reflexivity. Qed.

(** C11 (finding): the word offered on dataOut changes although it was not accepted. *)
Theorem C11_join_fair_stable_refuted :
  exists (i j : join_in nat),
    let o := snd (join_fair 0 (prio_init 2) i) in
    let o' := snd (join_fair 0 (fst (join_fair 0 (prio_init 2) i)) j) in
    j_vld o = true /\ j_rd i = false /\ j_in j = j_in i /\ j_vld o' = true /\ j_data o' <> j_data o.
Proof. exact c11_bad. Qed.
Print Assumptions C11_join_fair_stable_refuted.

(** C45 (finding): the priority moves also in cycles without transfer, a consumer which is ready
    every other cycle starves an input for ever. *)
Theorem C45_join_fair_slow_consumer_refuted :
  forall n, exists js : list (join_in nat),
    length (filter (fun j => j_rd j) js) = n /\
    (forall j, In j js -> in_word j 1 8) /\
    forall m j o, nth_error js m = Some j ->
       nth_error (outs (join_fair 0) (prio_init 2) js) m = Some o -> ~ in_moves j o 1.
Proof. exact c45_bad. Qed.
Print Assumptions C45_join_fair_slow_consumer_refuted.

(** C12 *)
Theorem C12_join_prioritized :
  forall (A : Type) (x : A) (i : join_in A),
    let o := join_prio x i in
    (forall k, in_moves i o k <->
        j_rd i = true /\ (exists d, in_word i k d) /\ forall j d, j < k -> ~ in_word i j d) /\
    (forall k d, in_moves i o k -> in_word i k d -> out_moves i o /\ j_data o = d) /\
    (out_moves i o -> exists k, in_moves i o k).
Proof. exact @c12. Qed.
Print Assumptions C12_join_prioritized.

Example C12_case :
  let o := join_prio 0 (mk_jin [(false, 5); (true, 6); (true, 7)] true) in
  j_rds o = [true; true; false] /\ j_vld o = true /\ j_data o = 6.
Proof. vm_compute. repeat split. Qed.

(** C13 *)
Theorem C13_split_copy_all_or_none :
  forall i : split_in,
    let o := split_copy i in
    (din_moves i o -> forall k, k < nout i -> out_takes i o k) /\
    (forall k, out_takes i o k -> din_moves i o).
Proof. exact c13. Qed.
Print Assumptions C13_split_copy_all_or_none.

Example C13_case :
  din_moves (mk_sin true [true; true; true] false) (split_copy (mk_sin true [true; true; true] false)) /\
  s_vlds (split_copy (mk_sin true [true; false; true] false)) = [false; true; false].
Proof. vm_compute. repeat split. Qed.

(** C14: HsSplitFair hands each accepted word to exactly one ready output; it accepts a word
    whenever an output is ready (and selectedOneHot is taken, if exported). *)
Theorem C14_split_fair_exactly_one :
  forall (exp : bool) (n : nat) (is : list split_in) (i : split_in),
    0 < n -> nout i = n ->
    let o := snd (split_fair exp (final (split_fair exp) (prio_init n) is) i) in
    (din_moves i o <-> s_vld i = true /\ (exists k, nth_error (s_rds i) k = Some true) /\ sel_open exp i) /\
    (din_moves i o <-> exists k, out_takes i o k) /\
    (forall k j, out_takes i o k -> out_takes i o j -> k = j).
Proof. exact c14. Qed.
Print Assumptions C14_split_fair_exactly_one.

Theorem C14_split_fair_is_fair :
  forall (exp : bool) (n : nat) (is js : list split_in) (k : nat),
    k < n -> length js = n ->
    (forall j, In j js -> nout j = n /\ s_vld j = true /\ sel_open exp j /\ nth_error (s_rds j) k = Some true) ->
    exists m j o, nth_error js m = Some j /\
      nth_error (outs (split_fair exp) (final (split_fair exp) (prio_init n) is) js) m = Some o /\
      out_takes j o k.
Proof. exact c14_fair. Qed.
Print Assumptions C14_split_fair_is_fair.

Example C14_case :
  let js := repeat (mk_sin true [true; true; true] true) 3 in
  map s_vlds (outs (split_fair true) (prio_init 3) js) =
    [[true; false; false]; [false; true; false]; [false; false; true]].
Proof. vm_compute. reflexivity. Qed.

(** C15 (finding): selectedOneHot marks also the not ready output which has the priority. *)
Theorem C15_split_fair_selected_one_hot_refuted :
  exists is i, let o := snd (split_fair true (final (split_fair true) (prio_init 2) is) i) in
    nout i = 2 /\ din_moves i o /\ s_sel_vld o = true /\ s_sel o = [true; true].
Proof. exact c15_bad. Qed.
Print Assumptions C15_split_fair_selected_one_hot_refuted.

(** C15 (part): it is right whenever the output whose turn it is (cycle number mod n) is ready. *)
Theorem C15_split_fair_selected_one_hot_partial :
  forall (n : nat) (is : list split_in) (i : split_in),
    0 < n -> nout i = n -> s_vld i = true ->
    nth_error (s_rds i) (length is mod n) = Some true ->
    let o := snd (split_fair true (final (split_fair true) (prio_init n) is) i) in
    exists k, s_sel o = onehot n k /\ (s_sel_rd i = true -> out_takes i o k).
Proof. exact c15. Qed.
Print Assumptions C15_split_fair_selected_one_hot_partial.

Example C15_case :
  s_sel (snd (split_fair true (prio_init 3) (mk_sin true [true; false; true] true))) = onehot 3 0.
Proof. vm_compute. reflexivity. Qed.

(** C16 *)
Theorem C16_split_prioritized :
  forall i : split_in,
    let o := split_prio i in
    (forall k, out_takes i o k <->
       s_vld i = true /\ nth_error (s_rds i) k = Some true /\
       forall j, j < k -> nth_error (s_rds i) j = Some false) /\
    (din_moves i o <-> exists k, out_takes i o k).
Proof. exact c16_prio. Qed.
Print Assumptions C16_split_prioritized.

(** C16: HsSplitSelect with one-hot selects: the k-th accepted word is delivered to the output
    named by the k-th accepted select, nowhere else; at most one select is waiting inside. *)
Theorem C16_split_select :
  forall (A : Type) (x : bool) (n : nat) (d0 : list bool) (is : list (ssel_in A)),
    (forall i, In i is -> env_ok n i) ->
    let t := trace (split_select x) (mk_stage KLat false d0) is in
    ssel_words t = map snd (ssel_deliveries t) /\
    exists pending, ssel_selects t = map (onehot n) (map fst (ssel_deliveries t)) ++ pending /\ length pending <= 1.
Proof. exact @c16_select. Qed.
Print Assumptions C16_split_select.

Example C16_case :
  s_vlds (split_prio (mk_sin true [false; true; true] false)) = [true; true; false] /\
  let is := [mk_ssin true 5 true (onehot 2 1) [true; true]; mk_ssin true 5 true (onehot 2 0) [true; false];
             mk_ssin true 5 true (onehot 2 0) [false; true]; mk_ssin true 6 false (onehot 2 1) [true; true]] in
  ssel_deliveries (trace (split_select true) (mk_stage KLat false [false; false]) is) = [(1, 5); (0, 6)].
Proof. vm_compute. split; reflexivity. Qed.
