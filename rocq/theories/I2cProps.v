(** C109 - C113: the bit controller of the I2C master. *)
From Verif Require Import Base I2cModel I2cSpec I2cProofs I2cCases.

(** from reset, for every sequence of commands and pauses without a lost arbitration: the waves are as documented and each command
    is confirmed in its last cycle *)
Theorem C109_waves : forall c gs, Forall seg_ok gs -> let os := outs i2c_step (i2c_init c) (concat (map cycles gs)) in
  Forall (fun o => o_al o = false) os -> map levels os = waves gs (true, true) /\ map o_rd os = concat (map acks gs).
Proof. exact i2c_waves. Qed.
Print Assumptions C109_waves.
Example C109_waves_witness : Forall seg_ok session /\ Forall (fun o => o_al o = false) (outs i2c_step (i2c_init 9) (concat (map cycles session))) /\ length session = 7.
Proof.
  split; [|split; [apply forall_nb; vm_compute; reflexivity|reflexivity]].
  repeat constructor; try reflexivity; cbn; unfold held_for; (left; split; [reflexivity|]; repeat constructor; fail) || (right; split; [auto|]; repeat constructor).
Qed.

(** SDA changes with SCL released only as the start condition of START and as the stop condition of STOP, also if the
    arbitration is lost *)
Theorem C109_conditions : forall c is, polite c is -> forall p x y q, is = p ++ x :: y :: q ->
  let o1 := snd (i2c_step (final i2c_step (i2c_init c) p) x) in let o2 := snd (i2c_step (final i2c_step (i2c_init c) (p ++ [x])) y) in
  o_scl o1 = false -> o_scl o2 = false ->
  o_sda o1 = o_sda o2 \/ i_cmd x = START /\ o_sda o1 = false /\ o_sda o2 = true \/ i_cmd x = STOP /\ o_sda o1 = true /\ o_sda o2 = false.
Proof. exact i2c_safe. Qed.
Print Assumptions C109_conditions.
Example C109_conditions_witness : polite 0 (bus 0 (talk ++ stop_bit ++ nops 9)) /\ existsb o_al (outs i2c_step (i2c_init 0) (bus 0 (talk ++ stop_bit ++ nops 9))) = true.
Proof. split; [apply politeb_ok|]; vm_compute; reflexivity. Qed.

(** the period of SCL is not given by clk_cnt_initVal *)
Theorem C110_period_refuted : exists c is, polite c is /\ alone (i2c_init c) is /\ Forall (fun i => i_cnt i = c) is /\
  Forall (fun o => o_al o = false) (outs i2c_step (i2c_init c) is) /\ ~ slow_clock c (outs i2c_step (i2c_init c) is).
Proof.
  exists 10, (bus 10 talk). split; [apply politeb_ok; vm_compute; reflexivity|]. split; [vm_compute; reflexivity|].
  split; [apply Forall_forall; intros i; vm_compute; intuition (subst; reflexivity)|]. split; [apply forall_nb; vm_compute; reflexivity|].
  intros H. specialize (H 8 11). cbv zeta in H. cut (8 + 1 + 10 < 11); [lia|]. apply H; [lia|vm_compute; lia|vm_compute; discriminate|vm_compute; discriminate].
Qed.
Print Assumptions C110_period_refuted.
(** a slave which holds SCL low is not waited for *)
Theorem C110_stretch_refuted : exists c is p x q, polite c is /\ Forall (fun i => i_scl i = false) is /\
  is = p ++ x :: q /\ i_cmd x = WRITE /\ o_rd (snd (i2c_step (final i2c_step (i2c_init c) p) x)) = true /\
  Forall (fun o => o_al o = false) (outs i2c_step (i2c_init c) is).
Proof.
  set (is := drive pulled free 10 (i2c_init 10) (start_bit ++ write_bit true)).
  exists 10, is, (firstn 10 is), (nth 10 is (mk_i 0 0 false false false)), []. split; [apply politeb_ok; vm_compute; reflexivity|].
  split; [apply forall_nb; vm_compute; reflexivity|]. split; [vm_compute; reflexivity|]. split; [reflexivity|]. split; [vm_compute; reflexivity|].
  apply forall_nb; vm_compute; reflexivity.
Qed.
Print Assumptions C110_stretch_refuted.
(** without a lost arbitration the lines and confirmations depend on the commands only *)
Theorem C110_fixed_partial : forall c c' is is', map (fun i => (i_cmd i, i_din i)) is = map (fun i => (i_cmd i, i_din i)) is' ->
  let os := outs i2c_step (i2c_init c) is in let os' := outs i2c_step (i2c_init c') is' in
  Forall (fun o => o_al o = false) os -> Forall (fun o => o_al o = false) os' ->
  map (fun o => (o_rd o, o_scl o, o_sda o)) os = map (fun o => (o_rd o, o_scl o, o_sda o)) os'.
Proof. exact i2c_fixed. Qed.
Print Assumptions C110_fixed_partial.
Example C110_fixed_witness : let os := outs i2c_step (i2c_init 10) (bus 10 talk) in let os' := outs i2c_step (i2c_init 3) (bus 3 talk) in
  Forall (fun o => o_al o = false) os /\ Forall (fun o => o_al o = false) os' /\ length (filter o_rd os) = 4.
Proof. split; [|split]; [apply forall_nb; vm_compute; reflexivity| apply forall_nb; vm_compute; reflexivity|vm_compute; reflexivity]. Qed.

(** a bit 0 and a bit 1 on SDA give the same outputs *)
Theorem C111_read_refuted : exists c is is' p x q, polite c is /\ polite c is' /\ is = p ++ x :: q /\ i_cmd x = READ /\
  o_rd (snd (i2c_step (final i2c_step (i2c_init c) p) x)) = true /\
  Forall (fun i => i_cmd i = READ -> i_sda i = true) is /\ Forall (fun i => i_cmd i = READ -> i_sda i = false) is' /\
  map (fun i => (i_cnt i, i_cmd i, i_din i, i_scl i)) is = map (fun i => (i_cnt i, i_cmd i, i_din i, i_scl i)) is' /\
  outs i2c_step (i2c_init c) is = outs i2c_step (i2c_init c) is'.
Proof.
  set (h := start_bit ++ read_bit ++ nops 20). set (is := drive free (fun _ => true) 10 (i2c_init 10) h). set (is' := drive free pulled 10 (i2c_init 10) h).
  exists 10, is, is', (firstn 10 is), (nth 10 is (mk_i 0 0 false false false)), (skipn 11 is).
  split; [apply politeb_ok; vm_compute; reflexivity|]. split; [apply politeb_ok; vm_compute; reflexivity|]. split; [vm_compute; reflexivity|].
  split; [reflexivity|]. split; [vm_compute; reflexivity|].
  split; [apply Forall_forall; intros i; vm_compute; intuition (subst; (reflexivity || discriminate))|].
  split; [apply Forall_forall; intros i; vm_compute; intuition (subst; (reflexivity || discriminate))|].
  split; vm_compute; reflexivity.
Qed.
Print Assumptions C111_read_refuted.
(** dout shows rising edges of SCL without glitches, it never depends on SDA nor on the command *)
Theorem C111_dout_partial : forall c is i j, c < 2 ^ 16 -> Forall (fun i => i_cnt i = c) is ->
  o_dout (snd (i2c_step (final i2c_step (i2c_init c) (is ++ [i])) j)) =
  negb (before (clean c (scl_of is)) (length is)) && clean c (scl_of is) (length is).
Proof. exact i2c_dout. Qed.
Print Assumptions C111_dout_partial.
Theorem C111_sda_partial : forall c is is', map (fun i => (i_cnt i, i_scl i)) is = map (fun i => (i_cnt i, i_scl i)) is' ->
  map o_dout (outs i2c_step (i2c_init c) is) = map o_dout (outs i2c_step (i2c_init c) is').
Proof. exact i2c_dout_same. Qed.
Print Assumptions C111_sda_partial.
Example C111_dout_witness : existsb o_dout (outs i2c_step (i2c_init 0) (bus 0 (talk ++ nops 9))) = true /\ Forall (fun i => i_cnt i = 0) (bus 0 (talk ++ nops 9)).
Proof. split; [vm_compute; reflexivity|]. apply Forall_forall; intros i; vm_compute; intuition (subst; reflexivity). Qed.

(** the controller loses the arbitration by its own STOP on a bus without other devices *)
Theorem C112_own_stop_refuted : exists c is, polite c is /\ alone (i2c_init c) is /\ existsb o_al (outs i2c_step (i2c_init c) is) = true.
Proof. exists 3, (bus 3 (start_bit ++ write_bit true ++ write_bit false ++ stop_bit ++ nops 12)). split; [apply politeb_ok; vm_compute; reflexivity|]. split; vm_compute; reflexivity. Qed.
Print Assumptions C112_own_stop_refuted.
(** another device which holds SDA low while ones are written is not noticed *)
Theorem C112_contention_refuted : exists c is, polite c is /\ Forall (fun i => i_sda i = false) is /\
  length (filter (fun t => o_rd (snd t) && (i_cmd (fst t) =? WRITE) && i_din (fst t)) (trace i2c_step (i2c_init c) is)) = 3 /\
  Forall (fun o => o_al o = false) (outs i2c_step (i2c_init c) is).
Proof.
  exists 0, (drive free pulled 0 (i2c_init 0) (start_bit ++ write_bit true ++ write_bit true ++ write_bit true)).
  split; [apply politeb_ok; vm_compute; reflexivity|]. split; [apply forall_nb; vm_compute; reflexivity|]. split; [vm_compute; reflexivity|].
  apply forall_nb; vm_compute; reflexivity.
Qed.
Print Assumptions C112_contention_refuted.
(** arbitrationLost is exactly a stop condition seen on lines without glitches while no command runs and cmd_stop is not set *)
Theorem C112_stop_partial : forall c is i j, c < 2 ^ 16 -> Forall (fun i => i_cnt i = c) is -> let s := final i2c_step (i2c_init c) is in
  o_al (snd (i2c_step (final i2c_step (i2c_init c) (is ++ [i])) j)) = true <->
  s_st s = idle /\ clean c (scl_of is) (length is) = true /\ before (clean c (sda_of is)) (length is) = false /\
  clean c (sda_of is) (length is) = true /\ s_cstop s = false.
Proof. exact i2c_al. Qed.
Print Assumptions C112_stop_partial.
Example C112_stop_witness : let is := bus 3 (start_bit ++ write_bit true ++ write_bit false ++ stop_bit ++ nops 12) in
  map o_al (skipn 27 (outs i2c_step (i2c_init 3) is)) = [false; false; true; false; false; false].
Proof. vm_compute. reflexivity. Qed.
(** in any state: a command which loses arbitration is not acknowledged, and both lines are released in the next cycle *)
Theorem C112_release : forall s i j, o_al (snd (i2c_step s i)) = true -> let o := snd (i2c_step (fst (i2c_step s i)) j) in
  o_rd (snd (i2c_step s i)) = false /\ o_scl o = false /\ o_sda o = false /\ s_st (fst (i2c_step s i)) = idle.
Proof. exact i2c_release. Qed.
Print Assumptions C112_release.

(** short pulses on the lines are not seen *)
Theorem C113_glitch_partial : forall c is, 2 <= c -> c < 2 ^ 16 -> Forall (fun i => i_cnt i = c) is ->
  only_glitches c (scl_of is) -> only_glitches c (sda_of is) ->
  Forall (fun o => o_al o = false /\ o_dout o = false) (outs i2c_step (i2c_init c) is).
Proof. exact i2c_glitch. Qed.
Print Assumptions C113_glitch_partial.
Example C113_glitch_witness : let is := map (fun k => mk_i 2 NOP false (negb (existsb (Nat.eqb k) [4; 5; 6; 13; 14])) (negb (existsb (Nat.eqb k) [0; 2; 20]))) (seq 0 24) in
  only_glitches 2 (scl_of is) /\ only_glitches 2 (sda_of is) /\ scl_of is 5 = false /\ sda_of is 20 = false.
Proof.
  split; [|split; [|split; reflexivity]].
  - intros n m H Hn Hm. do 25 (destruct n as [|n]; [try discriminate Hn; do 25 (destruct m as [|m]; [try discriminate Hm; lia|]); destruct m; discriminate Hm|]). destruct n; discriminate Hn.
  - intros n m H Hn Hm. do 25 (destruct n as [|n]; [try discriminate Hn; do 25 (destruct m as [|m]; [try discriminate Hm; lia|]); destruct m; discriminate Hm|]). destruct n; discriminate Hn.
Qed.
(** for clk_cnt_initVal = 0 the arbitration is lost behind reset on lines which are high all the time *)
Theorem C113_reset_refuted : exists is, Forall (fun i => i_cnt i = 0 /\ i_cmd i = NOP /\ i_scl i = true /\ i_sda i = true) is /\
  existsb o_al (outs i2c_step (i2c_init 0) is) = true.
Proof. exists (repeat (mk_i 0 NOP false true true) 8). split; [apply Forall_forall; intros i H; apply repeat_spec in H; subst; auto|vm_compute; reflexivity]. Qed.
Print Assumptions C113_reset_refuted.
