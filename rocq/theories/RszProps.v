(** C116, C117: AxiResize. [a], [b]: DATA_WIDTH is 2^a bytes (16 bits and more), OUT_DATA_WIDTH is 2^b bytes. *)
From Verif Require Import Base RszModel RszSpec RszProofs RszCases.

(** for every history the k-th write on the wide bus changes the same bytes as the k-th write on the narrow bus *)
Theorem C116_write : forall (V X P : Type) (z : V) (x0 : nat * X) a b OAW DEPTH, 1 <= a -> a < b -> 2 <= DEPTH ->
  forall m1 m2 d1 d2 is, Forall (rs_env (2 ^ a) OAW) is ->
  let t := trace (rs_step (P := P) z (2 ^ a) (2 ^ b) OAW DEPTH) (rs_init x0 DEPTH m1 m2 d1 d2) is in
  length (m_w t) = length (s_w t) /\
  forall k w', nth_error (m_w t) k = Some w' ->
    exists ad ad' x w, nth_error (s_aw t) k = Some (ad, x) /\ nth_error (m_aw t) k = Some (ad', x) /\ nth_error (s_w t) k = Some w /\
      writes (2 ^ b) ad' w' = writes (2 ^ a) ad w.
Proof. exact @rs_write. Qed.
Print Assumptions C116_write.
Example C116_write_witness : let t := trace (rs_step 0 2 4 8 4) (rs_init (0, tt) 4 (fun _ => 0) (fun _ => 0) 0 0) cw in
  Forall (rs_env (2 ^ 1) 8) cw /\ map fst (m_aw t) = [4; 0] /\ m_w t = [([0; 0; 4; 7], [false; false; true; true]); ([5; 8; 0; 0], [true; false; false; false])].
Proof. split; [repeat constructor; cbn; lia|]. split; reflexivity. Qed.

(** the k-th word read by the narrow bus is the word of the memory behind the wide bus at the k-th address *)
Theorem C116_read : forall (V X P : Type) (z : V) (x0 : nat * X) a b OAW DEPTH, 1 <= a -> a < b -> 2 <= DEPTH ->
  forall m1 m2 d1 d2 is, Forall (rs_env (2 ^ a) OAW) is ->
  let t := trace (rs_step (P := P) z (2 ^ a) (2 ^ b) OAW DEPTH) (rs_init x0 DEPTH m1 m2 d1 d2) is in
  length (s_r t) = length (m_r t) /\
  forall k d r, nth_error (s_r t) k = Some (d, r) ->
    exists ad ad' x d', nth_error (s_ar t) k = Some (ad, x) /\ nth_error (m_ar t) k = Some (ad', x) /\ nth_error (m_r t) k = Some (d', r) /\
      forall f, d' = word_at (2 ^ b) f ad' -> d = word_at (2 ^ a) f ad.
Proof. exact @rs_read. Qed.
Print Assumptions C116_read.
Example C116_read_witness : let t := trace (rs_step 0 2 4 8 4) (rs_init (0, tt) 4 (fun _ => 0) (fun _ => 0) 0 0) cr in
  Forall (rs_env (2 ^ 1) 8) cr /\ map fst (m_ar t) = [4; 0] /\ map fst (s_r t) = [[42; 43]; [50; 51]].
Proof. split; [repeat constructor; cbn; lia|]. split; reflexivity. Qed.

(** addresses go in order and aligned to words of the wide bus; at most one is inside and DEPTH wait for data *)
Theorem C116_addr : forall (V X P : Type) (z : V) (x0 : nat * X) a b OAW DEPTH, 1 <= a -> a < b -> 2 <= DEPTH ->
  forall m1 m2 d1 d2 is, Forall (rs_env (2 ^ a) OAW) is ->
  let t := trace (rs_step (P := P) z (2 ^ a) (2 ^ b) OAW DEPTH) (rs_init x0 DEPTH m1 m2 d1 d2) is in
  let al := map (fun p : nat * X => (fst p / 2 ^ b * 2 ^ b, snd p)) in
  (exists w, al (s_aw t) = m_aw t ++ w /\ length w <= 1) /\ (exists r, al (s_ar t) = m_ar t ++ r /\ length r <= 1) /\
  length (m_aw t) <= length (m_w t) + DEPTH /\ length (m_ar t) <= length (m_r t) + DEPTH.
Proof. exact @rs_addr. Qed.
Print Assumptions C116_addr.

(** outside of the quantifier: for words of 8 bits the byte lands at another address *)
Theorem C116_byte_words : exists is, let t := trace (rs_step (P := unit) 0 1 4 8 4) (rs_init (0, tt) 4 (fun _ => 0) (fun _ => 0) 0 0) is in
  Forall (rs_env 1 8) is /\ exists ad w ad' w', s_aw t = [ad] /\ s_w t = [w] /\ m_aw t = [ad'] /\ m_w t = [w'] /\
  writes 1 (fst ad) w = [(1, 4)] /\ writes 4 (fst ad') w' = [(0, 4)].
Proof.
  exists cb. split; [repeat constructor; cbn; lia|]. exists (1, tt), ([4], [true]), (0, tt), ([4; 0; 0; 0], [true; false; false; false]).
  repeat split; reflexivity.
Qed.
Print Assumptions C116_byte_words.

(** after any history, for the pins of the next two cycles: what is offered stays offered until it is taken, and nothing gets stuck:
    an empty address register takes an address, a loaded one offers it while fewer than DEPTH - 1 wait for data, and data are passed
    from the second cycle after their address was *)
Theorem C117_two_cycles : forall (V X P : Type) (z : V) (x0 : nat * X) a b OAW DEPTH, 1 <= a -> a < b -> 2 <= DEPTH ->
  forall m1 m2 d1 d2 is i j,
  let step := rs_step (P := P) z (2 ^ a) (2 ^ b) OAW DEPTH in
  let t := trace step (rs_init x0 DEPTH m1 m2 d1 d2) is in let s := final step (rs_init x0 DEPTH m1 m2 d1 d2) is in
  let o := snd (step s i) in let o' := snd (step (fst (step s i)) j) in
  ((o_mawv o = true -> i_mawrd i = false -> o_mawv o' = true /\ o_maw o' = o_maw o) /\
   (o_marv o = true -> i_marrd i = false -> o_marv o' = true /\ o_mar o' = o_mar o) /\
   (o_mwv o = true -> i_mwrd i = false -> i_wv j = true -> i_w j = i_w i -> o_mwv o' = true /\ o_mw o' = o_mw o) /\
   (o_rv o = true -> i_rrd i = false -> i_mrv j = true -> i_mr j = i_mr i -> o_rv o' = true /\ o_r o' = o_r o) /\
   (o_bv o = i_mbv i /\ o_b o = i_mb i /\ o_mbrd o = i_brd i)) /\
  ((length (m_aw t) = length (s_aw t) -> o_awrd o = true) /\
   (length (m_ar t) = length (s_ar t) -> o_arrd o = true) /\
   (length (m_aw t) < length (s_aw t) -> length (m_aw t) < length (m_w t) + (DEPTH - 1) -> o_mawv o = true) /\
   (length (m_ar t) < length (s_ar t) -> length (m_ar t) < length (m_r t) + (DEPTH - 1) -> o_marv o = true) /\
   (length (m_w t) + Nat.b2n (o_mwv o && i_mwrd i) < length (m_aw t) -> o_mwv o' = i_wv j /\ o_wrd o' = i_mwrd j) /\
   (length (m_r t) + Nat.b2n (i_mrv i && o_mrrd o) < length (m_ar t) -> o_rv o' = i_mrv j /\ o_mrrd o' = i_rrd j)).
Proof. exact @rs_two. Qed.
Print Assumptions C117_two_cycles.
Example C117_two_cycles_witness : let step := rs_step (P := unit) 0 2 4 8 4 in let s0 := rs_init (0, tt) 4 (fun _ => 0) (fun _ => 0) 0 0 in
  let t k := trace step s0 (firstn k cw) in let s k := final step s0 (firstn k cw) in
  length (m_aw (t 1)) < length (s_aw (t 1)) /\ o_mawv (snd (step (s 1) (nth 1 cw (ci true 0 true ([], []) true true)))) = true /\
  length (m_w (t 3)) < length (m_aw (t 3)) /\ o_mwv (snd (step (s 4) (nth 4 cw (ci true 0 true ([], []) true true)))) = true.
Proof. vm_compute. repeat split; repeat constructor. Qed.
