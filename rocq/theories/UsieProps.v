(** C149: packets received from UTMI.  C150: frames given to UTMI. *)
From Verif Require Import Base UsieModel UsieSpec UsieProofs.

(** The words are complete in the cycle after the one which decides about last.
    Missing: cycles without valid inside a packet ([C149_gap_refuted]). *)
Theorem C149_words_partial : forall (D : Type) (d d' : option D) (e e' : bool) (js : list (ur_in D)) (x : ur_in D), no_gap js ->
  rx_given (outs ur_step (ur_init d d' e e') (js ++ [x])) = rx_words None js.
Proof. intros D. exact c149. Qed.
Print Assumptions C149_words_partial.
Example C149_words_case :
  let b v := mk_uri true true v false in let idle := mk_uri false false 0 false in let sync := mk_uri true false 0 false in
  let js := [idle; sync; sync; b 1; b 2; mk_uri true true 3 true; idle; sync; b 4; idle; idle] in
  no_gap js /\ rx_words None js = [(Some 1, false, false); (Some 2, false, false); (Some 3, true, true); (Some 4, false, true)].
Proof. cbn. repeat split; intros; congruence. Qed.

(** Without valid inside a packet the previous byte is repeated. *)
Theorem C149_gap_refuted : exists (js : list (ur_in nat)) (x : ur_in nat),
  rx_words None js = [(Some 1, false, false); (Some 2, false, true)] /\
  rx_given (outs ur_step (ur_init None None false false) (js ++ [x])) = [(Some 1, false, false); (Some 1, false, false); (Some 1, false, false); (Some 2, false, true)].
Proof.
  exists [mk_uri true true 1 false; mk_uri true false 0 false; mk_uri true false 0 false; mk_uri true true 2 false; mk_uri false false 0 false], (mk_uri false false 0 false).
  split; reflexivity.
Qed.
Print Assumptions C149_gap_refuted.

(** In any schedule: no byte is lost, repeated or reordered. *)
Theorem C150_bytes : forall (D : Type) (is : list (ux_in D)),
  tx_given (trace ux_step false is) = map fst (tx_taken (trace ux_step false is)).
Proof. intros D is. exact (tx_order is false). Qed.
Print Assumptions C150_bytes.
Example C150_bytes_case :
  tx_taken (trace ux_step false [mk_uxi true 1 false true; mk_uxi true 2 true false; mk_uxi true 2 true true; mk_uxi true 3 true false; mk_uxi true 3 true true; mk_uxi true 3 true true])
  = [(1, false); (2, true); (3, true)].
Proof. reflexivity. Qed.

(** The packets seen by the transceiver are the frames of the stream; the final cycle is idle so the last packet is finished. *)
Theorem C150_packets : forall (D : Type) (is : list (ux_in D)) (c : ux_in D), is_idle c -> tx_continuous false (trace ux_step false (is ++ [c])) ->
  tx_packets [] (trace ux_step false (is ++ [c])) = tx_frames [] (tx_taken (trace ux_step false (is ++ [c]))).
Proof. intros D. exact c150_packets. Qed.
Print Assumptions C150_packets.
Example C150_packets_case :
  let is := [mk_uxi true 1 false true; mk_uxi true 2 true false; mk_uxi true 2 true true; mk_uxi true 3 true false; mk_uxi true 3 true true; mk_uxi true 3 true true] in
  let c := mk_uxi false 0 false true in
  is_idle c /\ tx_continuous false (trace ux_step false (is ++ [c])) /\ tx_packets [] (trace ux_step false (is ++ [c])) = [[1; 2]; [3]].
Proof. cbn. repeat split; intros; congruence. Qed.

(** A ready transceiver gets an offered byte after one cycle at the latest, from any state. *)
Theorem C150_progress : forall (D : Type) (s : bool) (i i' : ux_in D), xi_rd i = true -> xi_rd i' = true ->
  xo_ready (snd (ux_step s i)) = true \/ xo_ready (snd (ux_step (fst (ux_step s i)) i')) = true.
Proof. intros D s i i' H H'. destruct s; cbn; rewrite H, ?H'; auto. Qed.
Print Assumptions C150_progress.
Example C150_progress_case : xo_ready (snd (ux_step true (mk_uxi true 1 false true))) = false /\ xo_ready (snd (ux_step false (mk_uxi true 1 false true))) = true.
Proof. split; reflexivity. Qed.
