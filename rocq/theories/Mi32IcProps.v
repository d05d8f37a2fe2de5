(** C70: Mi32InterconnectMatrix. *)
From Verif Require Import Base Mi32IcModel Mi32IcSpec Mi32IcProofs.

(** Every access is seen only by the slave of its address and taken from the master in the cycle in which the slave takes it. *)
Theorem C70_mi32_routing (D : Type) (SLAVES : list (nat * nat)) (DEPTH : nat) (s : ic_st D) (is : list (ic_in D)) :
  slaves_ok SLAVES -> Forall (routed SLAVES) (trace (ic_step SLAVES DEPTH) s is).
Proof. exact (fun H => all_routed SLAVES DEPTH H s is). Qed.
Print Assumptions C70_mi32_routing.
(** If all slaves answer reads after exactly one cycle, the master gets the read data in order, each word one cycle after the slave
    gave it, and nothing else. Missing: slaves with other latencies, see below. *)
Theorem C70_mi32_read_data_partial (D : Type) (SLAVES : list (nat * nat)) (DEPTH : nat) m0 d0 (x : nat -> D) (is : list (ic_in D)) :
  slaves_ok SLAVES -> 2 <= DEPTH ->
  lat1 (length SLAVES) None (trace (ic_step SLAVES DEPTH) (ic_init DEPTH m0 d0 x) is) ->
  data_law None None (trace (ic_step SLAVES DEPTH) (ic_init DEPTH m0 d0 x) is).
Proof. exact (fun H HD => data_run0 SLAVES DEPTH H HD m0 d0 x is). Qed.
Print Assumptions C70_mi32_read_data_partial.
Example C70_example : let t := trace (ic_step ex_cfg 4) (ic_init 4 (fun _ => 0) 0 (fun _ => 0)) ex_ic in
  slaves_ok ex_cfg /\ lat1 (length ex_cfg) None t /\
  map (fun c => if io_drdy (snd c) then [io_drd (snd c)] else []) t = [[]; []; [70]; [71]; []].
Proof. exact (conj ex_cfg_ok (conj ex_lat1 eq_refl)). Qed.
(** A slave which answers after two cycles: the master gets two words for one read, the first before the slave answered. *)
Theorem C70_mi32_read_data_refuted : exists is : list (ic_in nat),
  let t := trace (ic_step ex_cfg 4) (ic_init 4 (fun _ => 0) 0 (fun _ => 0)) is in
  n_reads t = 1 /\ map (fun c => fst (ii_d (fst c) 0)) t = [false; false; true; false; false] /\ n_words t = 2 /\
  map (fun c => if io_drdy (snd c) then [io_drd (snd c)] else []) t = [[]; []; [0]; [70]; []].
Proof. exact (ex_intro _ ex_ic2 (conj eq_refl (conj eq_refl (conj eq_refl eq_refl)))). Qed.
Print Assumptions C70_mi32_read_data_refuted.
