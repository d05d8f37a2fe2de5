(** C41, C42, C46, C47: timers, oversampling, edge detection and register paths of ClkBuilder. *)
From Verif Require Import Base BaseFacts TimerModel TimerSpec TimerProofs.

(** the i-th returned tick in the cycle after the history [h], for any list of periods: high exactly in each t-th enabled
    cycle since the start or since the last reset *)
Theorem C41_shared_timers : forall ps h en i t, Forall (fun p => 1 <= p) ps -> nth_error ps i = Some t ->
  nth_error (snd (timers_step ps (final (timers_step ps) (timers_init ps) h) (en, false))) i =
  Some (en && ((enabled_since h + 1) mod t =? 0)).
Proof. exact timers_correct. Qed.
Print Assumptions C41_shared_timers.
(** 24 counts the ticks of 8, 6 counts the ticks of 2, which is made of the bits of the counter of 8; 1 is the enable *)
Example C41_shared_timers_witness : sorted_timers [2; 24; 1; 6; 8] = [(1, 24); (4, 8); (3, 6); (0, 2)] /\
  map (resolve_sharing [24; 8; 6; 2]) [0; 1; 2; 3] = [Some 1; None; Some 3; Some 1].
Proof. vm_compute. auto. Qed.
Example C41_shared_timers_run :
  map (fun o => nth 3 o false) (outs (timers_step [2; 24; 1; 6; 8]) (timers_init [2; 24; 1; 6; 8]) (repeat (true, false) 13)) =
  [false; false; false; false; false; true; false; false; false; false; false; true; false].
Proof. vm_compute. reflexivity. Qed.
(** outside of the claim: in a cycle with reset the ticks which are bits of a larger counter are not masked *)
Example C41_reset_cycle_not_masked :
  snd (timers_step [4; 2] (final (timers_step [4; 2]) (timers_init [4; 2]) [(true, false)]) (true, true)) = [false; true].
Proof. vm_compute. reflexivity. Qed.

(** with an enable signal and an optional reset *)
Theorem C42_dynamic_timer_partial : forall w P h en rst, 1 <= P -> P < 2 ^ w ->
  snd (dyn_step w (final (dyn_step w) 0 (map (fun i => mk_di P (fst i) (snd i)) h)) (mk_di P en rst)) =
  en && negb rst && ((enabled_since h + 1) mod P =? 0).
Proof. exact dyn_correct. Qed.
Print Assumptions C42_dynamic_timer_partial.
Example C42_dynamic_timer_witness : 1 <= 3 /\ 3 < 2 ^ 2 /\
  outs (dyn_step 2) 0 (map (fun i => mk_di 3 (fst i) (snd i)) [(true, false); (false, false); (true, false); (true, false); (true, false)]) =
  [false; false; false; true; false].
Proof. vm_compute. repeat split; repeat constructor. Qed.
(** without an enable signal a period of one works *)
Theorem C42_free_running_partial : forall w n, 0 < w -> outs (dyn_free_step w) 0 (repeat 1 n) = repeat true n.
Proof. exact dyn_free_one. Qed.
Print Assumptions C42_free_running_partial.
Example C42_free_running_witness : outs (dyn_free_step 4) 0 (repeat 1 3) = [true; true; true].
Proof. reflexivity. Qed.
(** ... and any other period never ticks *)
Theorem C42_free_running_refuted : forall w P n, 1 < P -> P < 2 ^ w -> outs (dyn_free_step w) 0 (repeat P n) = repeat false n.
Proof. intros w P n. apply dyn_free_never. Qed.
Print Assumptions C42_free_running_refuted.
Example C42_free_running_refuted_witness : 1 < 3 /\ 3 < 2 ^ 2. Proof. vm_compute. lia. Qed.

(** sampleDoneTick marks each n-th sample *)
Theorem C46_sample_done : forall n h st sig, 2 <= n ->
  snd (snd (os_step n (final (os_step n) (os_init n) h) (st, sig))) = st && ((length (samples h) + 1) mod n =? 0).
Proof. exact os_done. Qed.
Print Assumptions C46_sample_done.
(** the value given with sampleDoneTick is the majority of the window, if the last sample of the window is low *)
Theorem C46_majority_partial : forall n h o, 2 <= n ->
  snd (os_step n (final (os_step n) (os_init n) h) (true, false)) = (o, true) -> o = majority n (samples (h ++ [(true, false)])).
Proof. exact os_majority. Qed.
Print Assumptions C46_majority_partial.
Example C46_majority_witness :
  snd (os_step 4 (final (os_step 4) (os_init 4) [(true, true); (false, true); (true, false); (true, true)]) (true, false)) = (true, true).
Proof. reflexivity. Qed.
(** the last sample is never counted *)
Theorem C46_majority_refuted : exists n h o, 2 <= n /\
  snd (os_step n (final (os_step n) (os_init n) h) (true, true)) = (o, true) /\ o <> majority n (samples (h ++ [(true, true)])).
Proof. exists 4, [(true, true); (true, false); (true, false)], false. repeat split; [lia|discriminate]. Qed.
Print Assumptions C46_majority_refuted.

(** rising / falling compare the signal with its value in the previous cycle (initVal in the first one) *)
Theorem C47_edge_detector : forall initVal h sig, let prev := last h initVal in
  snd (edge_step (final edge_step initVal h) sig) = (sig && negb prev, negb sig && prev).
Proof. intros initVal h sig prev. unfold prev. rewrite <- edge_final. reflexivity. Qed.
Print Assumptions C47_edge_detector.
Example C47_edge_detector_witness : outs edge_step false [true; true; false] = [(true, false); (false, false); (false, true)].
Proof. reflexivity. Qed.
(** a register path delays by the number of its registers *)
Theorem C47_reg_path : forall A (ins regs : list A), outs reg_path_step regs ins = firstn (length ins) (rev regs ++ ins).
Proof. exact @reg_path_outs. Qed.
Print Assumptions C47_reg_path.
Example C47_reg_path_witness : outs reg_path_step [7; 8] [1; 2; 3] = [8; 7; 1].
Proof. reflexivity. Qed.
