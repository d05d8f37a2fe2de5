(** C101: SpiMaster exchanges each word with the slave. *)
From Verif Require Import Base SpiModel SpiSpec SpiProofs SpiCases.

(** words kept by the user until their response, from reset, with any gaps, for a half period which is a power of two and a
    wait of 1, 2 or 4 periods of the clock *)
Theorem C101_words_partial : forall PRESC SS h a, PRESC / 2 = 2 ^ h -> SS = 2 ^ a -> a <= 2 ->
  forall tx rx ws, length rx = 8 -> all_kept (PRESC / 2) SS true ws ->
  all_exchanged (PRESC / 2) SS true ws (trace (sp_step PRESC SS) (sp_init PRESC SS tx rx) (concat (map inputs ws))).
Proof. exact spi_from_reset. Qed.
Print Assumptions C101_words_partial.
Example C101_words_witness : 4 / 2 = 2 ^ 1 /\ 1 = 2 ^ 0 /\ all_kept (4 / 2) 1 true two_transfers /\ all_kept (4 / 2) 1 true one_transfer.
Proof. vm_compute. auto 20. Qed.
Example C101_words_run : map snd (edges (trace (sp_step 4 1) (sp_init 4 1 [] rx0) (concat (map inputs one_transfer)))) = bits1 ++ bits2 /\
  map (fun c => o_din (snd c)) (filter (fun c => o_rd (snd c)) (trace (sp_step 4 1) (sp_init 4 1 [] rx0) (concat (map inputs one_transfer)))) =
  [[false; false; true; false; false; true; false; false]; [true; false; false; true; false; false; true; false]].
Proof. vm_compute. split; reflexivity. Qed.

(** for these parameters the logic of initWaitDone and timersRst has exactly one solution in every reachable state *)
Theorem C101_stable_partial : forall PRESC SS h a, PRESC / 2 = 2 ^ h -> SS = 2 ^ a -> a <= 2 ->
  forall tx rx is i, exists! v, stable PRESC SS (final (sp_step PRESC SS) (sp_init PRESC SS tx rx) is) i v.
Proof. exact spi_stable. Qed.
Print Assumptions C101_stable_partial.
(** for the other ones it is a combinational loop without a solution: the wait never ends in a defined way *)
Theorem C101_loop_refuted : exists PRESC is i, (forall n, n < length is ->
    exists! v, stable PRESC 4 (final (sp_step PRESC 4) (sp_init PRESC 4 [] rx0) (firstn n is)) (nth n is i) v) /\
  forall v, ~ stable PRESC 4 (final (sp_step PRESC 4) (sp_init PRESC 4 [] rx0) is) i v.
Proof.
  exists 10, (busy 39), (mk_spi true bits1 true false). split.
  - intros n Hn. exists false. do 39 (destruct n as [|n]; [split; [vm_compute; reflexivity|intros [|] Hv; [vm_compute in Hv; discriminate|reflexivity]]|]).
    exfalso. revert Hn. vm_compute. lia.
  - intros [|]; vm_compute; discriminate.
Qed.
Print Assumptions C101_loop_refuted.

(** the slave is not deselected behind the last word of a transfer if the next word is there *)
Theorem C101_deselect_refuted : exists ws, all_kept 2 1 true ws /\ Forall (fun w => w_last w = true) ws /\ length ws = 2 /\
  Forall (fun c => o_cs (snd c) = false) (skipn 1 (trace (sp_step 4 1) (sp_init 4 1 [] rx0) (concat (map inputs ws)))).
Proof. exists two_transfers. split; [vm_compute; auto 20|]. split; [repeat constructor|]. split; [reflexivity|]. vm_compute. repeat constructor. Qed.
Print Assumptions C101_deselect_refuted.
(** ... and it is deselected inside of a transfer if the next word is late *)
Theorem C101_keep_selected_refuted : exists w1 w2, all_kept 2 1 true [w1; w2] /\ w_last w1 = false /\ w_gap w1 = [] /\
  exists c, In c (trace (sp_step 4 1) (sp_init 4 1 [] rx0) (inputs w1 ++ inputs w2)) /\ o_cs (snd c) = true.
Proof.
  exists (mk_w [] bits1 false (noise 37)), (mk_w [true; true] bits2 true (noise 33)). split; [vm_compute; auto 20|]. split; [reflexivity|]. split; [reflexivity|].
  eexists (nth 37 _ (mk_spi false [] false false, mk_spo false [] false false false)).
  split; [apply nth_In; vm_compute; lia|vm_compute; reflexivity].
Qed.
Print Assumptions C101_keep_selected_refuted.
