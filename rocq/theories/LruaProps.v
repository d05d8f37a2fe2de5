(** C147: accesses update the LRU record of their index.  C148: each request for a victim is answered. *)
From Verif Require Import Base LruaModel LruaSpec LruaProofs LruaCases.

(** For any number of incr ports and any functions of the records.  Accesses of one cycle to the same index are merged.
    Missing: accesses to an index within two cycles ([C147_successive_refuted]), ports which do not hold the way after the handshake
    ([C147_way_refuted]), victims which are not taken at once ([C148_stable_refuted]). *)
Theorem C147_records_partial : forall (n : nat) (mark : N -> N -> N) (lru : N -> nat)
  (x : nat) (ix : nat -> nat) (wd rd : nat -> nat -> N) (ar : nat -> nat) (dr : nat -> N) (h : list l_in) (c c' : l_in),
  let is := (h ++ [c]) ++ [c'] in spaced n is -> held n is -> taken_at_once is ->
  ln_req c = true -> ln_set c = false ->
  let o := snd (l_step n mark lru (final (l_step n mark lru) (l_init x ix wd rd ar dr) (h ++ [c])) c') in
  lo_vld o = true /\ lo_data o = lru (record n mark lru h (ln_req_addr c)).
Proof. intros n mark lru x ix wd rd ar dr h c c' is H1 H2 H3 H4 H5. apply c147; [|exact H4|exact H5]. exact (conj H1 (conj H2 H3)). Qed.
Print Assumptions C147_records_partial.
Example C147_records_case :
  let is := (ex_hist ++ [ask 5]) ++ [hold 5] in
  spaced 2 is /\ held 2 is /\ taken_at_once is /\ lrec ex_hist 5 = 4%N /\ lrec ex_hist 6 = 4%N /\
  lo_data (snd (lstep (final lstep l0 (ex_hist ++ [ask 5])) (hold 5))) = 0.
Proof.
  cbv zeta. split; [apply spaced_ok; lazy; reflexivity|]. split; [apply held_ok; lazy; reflexivity|].
  split; [apply taken_ok; lazy; reflexivity|]. lazy. repeat split; reflexivity.
Qed.

(** The way is read from the pins one cycle after the handshake: the way which was just used is chosen as the victim. *)
Theorem C147_way_refuted : exists (h : list l_in) (c c' : l_in),
  let is := (h ++ [c]) ++ [c'] in spaced 2 is /\ taken_at_once is /\
  ln_req c = true /\ (forall q, In q is -> ln_set q = false /\ ln_req_addr q = 5 /\ li_index (ln_incr q 0) = 5 /\ li_vld (ln_incr q 1) = false) /\
  map (fun q => (li_vld (ln_incr q 0), li_way (ln_incr q 0))) h = [(true, 0); (false, 2); (false, 2); (false, 2)] /\
  doc_lru (lrec h 5) = 2 /\ lo_data (snd (lstep (final lstep l0 (h ++ [c])) c')) = 0.
Proof.
  exists ([cyc2 false 5 true (true, 5, 0) off; cyc2 false 5 true (false, 5, 2) off; cyc2 false 5 true (false, 5, 2) off; cyc2 false 5 true (false, 5, 2) off]),
    (cyc2 true 5 true (false, 5, 2) off), (cyc2 false 5 true (false, 5, 2) off).
  cbv zeta. split; [apply spaced_ok; lazy; reflexivity|]. split; [apply taken_ok; lazy; reflexivity|].
  split; [reflexivity|]. split.
  - cbn. intros q H. repeat (destruct H as [<-|H]; [cbn; auto|]). destruct H.
  - split; [reflexivity|]. lazy. split; reflexivity.
Qed.
Print Assumptions C147_way_refuted.

(** A record which was set in the previous cycle is not seen. *)
Theorem C147_successive_refuted : exists (h : list l_in) (c c' : l_in),
  let is := (h ++ [c]) ++ [c'] in held 2 is /\ taken_at_once is /\
  ln_req c = true /\ ln_set c = false /\ doc_lru (lrec h (ln_req_addr c)) = 3 /\ lo_data (snd (lstep (final lstep l0 (h ++ [c])) c')) = 0.
Proof.
  exists [cyc_set 5 7%N], (ask 5), (hold 5). cbv zeta.
  split; [apply held_ok; lazy; reflexivity|]. split; [apply taken_ok; lazy; reflexivity|]. lazy. repeat split; reflexivity.
Qed.
Print Assumptions C147_successive_refuted.

(** In every schedule each accepted request is answered once; a request which waits for its answer is seen as valid when set is not used. *)
Theorem C148_answers : forall (n : nat) (mark : N -> N -> N) (lru : N -> nat)
  (x : nat) (ix : nat -> nat) (wd rd : nat -> nat -> N) (ar : nat -> nat) (dr : nat -> N) (is : list l_in) (c : l_in),
  ln_set c = false ->
  let s0 := l_init x ix wd rd ar dr in let t := trace (l_step n mark lru) s0 is in
  requests t = answers t + (if lo_vld (snd (l_step n mark lru (final (l_step n mark lru) s0 is) c)) then 1 else 0).
Proof. intros. apply c148. assumption. Qed.
Print Assumptions C148_answers.
Example C148_answers_case :
  let t := trace lstep l0 [ask 5; cyc2 true 6 false off off; cyc_set 1 0%N; ask 6; hold 6; idle] in requests t = 2 /\ answers t = 2.
Proof. lazy. split; reflexivity. Qed.

(** The offered victim changes while it waits for the receiver. *)
Theorem C148_stable_refuted : exists (h : list l_in) (c c' : l_in),
  ln_set c = false /\ ln_set c' = false /\ ln_rd c = false /\
  let o := snd (lstep (final lstep l0 h) c) in let o' := snd (lstep (final lstep l0 (h ++ [c])) c') in
  lo_vld o = true /\ lo_vld o' = true /\ lo_data o = 3 /\ lo_data o' = 0.
Proof.
  exists [cyc_set 5 7%N; cyc_set 6 0%N; idle; idle; ask 5], (cyc2 true 6 false off off), (cyc2 true 6 true off off).
  lazy. repeat split; reflexivity.
Qed.
Print Assumptions C148_stable_refuted.
