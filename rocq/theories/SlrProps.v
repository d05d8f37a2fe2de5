(** C118, C119: HsSlrCrossing. *)
From Verif Require Import Base StreamSpec SlrModel SlrSpec SlrProofs.

(** a word which is offered in the first cycle after reset, when s.rd is 0, is delivered twice *)
Theorem C118_first_cycle_refuted : exists is, let t := map slr_obs (trace slr_step (slr_init 0 0 0 (true, 9) (true, 9) (true, 9)) is) in
  accepted t = [7] /\ delivered t = [7; 7].
Proof.
  exists (mk_xi true 7 true :: mk_xi true 7 true :: repeat (mk_xi false 0 true) 4). split; reflexivity.
Qed.
Print Assumptions C118_first_cycle_refuted.

(** for every history: what is delivered is what is accepted, behind a copy of the word offered in the first cycle; at most 5 words are inside *)
Theorem C118_exact_partial : forall (A : Type) (a b c : A) m1 m2 m3 is, let t := map slr_obs (trace slr_step (slr_init a b c m1 m2 m3) is) in
  exists inside, first_word is ++ accepted t = delivered t ++ inside /\ length inside <= 5.
Proof. exact @slr_exact. Qed.
Print Assumptions C118_exact_partial.

(** a queue, if no word is offered in the first cycle *)
Theorem C118_queue_partial : forall (A : Type) (a b c : A) m1 m2 m3 is, first_word is = [] ->
  queue_law 5 [] (map slr_obs (trace slr_step (slr_init a b c m1 m2 m3) is)).
Proof. exact @slr_queue. Qed.
Print Assumptions C118_queue_partial.
Example C118_queue_witness : let is := mk_xi false 0 false :: map (fun k => mk_xi true k false) [1; 2; 3; 4; 5; 6; 7; 8; 9] ++ repeat (mk_xi true 10 true) 2 in
  let t := map slr_obs (trace slr_step (slr_init 0 0 0 (true, 9) (true, 9) (true, 9)) is) in
  first_word is = [] /\ accepted t = [1; 2; 3; 4; 5] /\ delivered t = [1; 2].
Proof. repeat split; reflexivity. Qed.

(** an offered word stays offered until it is taken *)
Theorem C119_stable : forall (A : Type) (a b c : A) m1 m2 m3 is, out_stable (map slr_obs (trace slr_step (slr_init a b c m1 m2 m3) is)).
Proof. intros. apply slr_stable. Qed.
Print Assumptions C119_stable.

(** five cycles of a ready consumer deliver everything which was accepted before *)
Theorem C119_drain : forall (A : Type) (a b c : A) m1 m2 m3 is js, 5 <= length js -> (forall j, In j js -> xi_rd j = true) ->
  let t k := map slr_obs (trace slr_step (slr_init a b c m1 m2 m3) k) in
  exists more, delivered (t (is ++ js)) = (first_word is ++ accepted (t is)) ++ more.
Proof. exact @slr_drain. Qed.
Print Assumptions C119_drain.
Example C119_drain_witness : let is := mk_xi false 0 false :: map (fun k => mk_xi true k false) [1; 2; 3; 4; 5; 6; 7; 8; 9] in
  let js := repeat (mk_xi false 0 true) 5 in let t k := map slr_obs (trace slr_step (slr_init 0 0 0 (true, 9) (true, 9) (true, 9)) k) in
  accepted (t is) = [1; 2; 3; 4; 5] /\ delivered (t is) = [] /\ delivered (t (is ++ js)) = [1; 2; 3; 4; 5] /\ delivered (t (is ++ tl js)) = [1; 2; 3; 4].
Proof. repeat split; reflexivity. Qed.

(** the producer is stalled exactly if the output was blocked two cycles before *)
Theorem C119_ready : forall (A : Type) (s : slr A) i1 i2 i3, let s1 := fst (slr_step s i1) in let s2 := fst (slr_step s1 i2) in
  xo_rd (snd (slr_step s2 i3)) = xi_rd i1 || negb (xo_vld (snd (slr_step s i1))).
Proof. exact @slr_ready. Qed.
Print Assumptions C119_ready.
