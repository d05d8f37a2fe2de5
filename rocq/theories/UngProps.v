(** C161 - reset and speed negotiation of a USB device. *)
From Verif Require Import Base UngModel UngSpec UngProofs.

(** usb_rst is set exactly if the line was SE0 for the last 2^rb cycles (rb is 14 in the code) *)
Theorem C161_reset : forall k rb, 1 <= k -> forall p l, o_rst (ng_o rb (final (ng_step k rb) (ng_init p) l)) = true <-> exists a, l = a ++ repeat SE0 (2 ^ rb).
Proof. exact reset_detected. Qed.
(** a chirp only after SE0 of 4 ms, and not too late after it *)
Theorem C161_chirp_after_se0 : forall k rb, 1 <= k -> forall p l, o_chirp (ng_o rb (final (ng_step k rb) (ng_init p) l)) = true ->
  exists a c, l = a ++ repeat SE0 (4 * k + 1) ++ c /\ length c <= 5 * k + 2.
Proof. exact chirp_after. Qed.
(** The negotiation: 1 ms after power on, any line without long SE0, SE0 of 4 ms; then a chirp for 1 ms; then six changes of the line in time
    select high speed ... *)
Theorem C161_high_partial : forall k rb, 1 <= k -> forall c0 pre c2 w x y,
  length c0 = k + 2 -> short_runs (4 * k + 1) pre -> ended pre -> length c2 = k ->
  changes (last c2 SE0) w = 5 -> changes (last c2 SE0) (w ++ [x]) = 6 -> length w + 2 <= 5 * k ->
  let l := c0 ++ pre ++ repeat SE0 (4 * k + 2) ++ c2 ++ w ++ [x; y] in
  map seen (outs (ng_step k rb) (ng_init None) l) =
    repeat (None, false) (k + 2 + length pre + (4 * k + 2)) ++ repeat (None, true) k ++ repeat (None, false) (length w + 2) /\
  o_speed (ng_o rb (final (ng_step k rb) (ng_init None) l)) = Some HighSpeed.
Proof. exact to_hs. Qed.
(** ... and fewer changes in 5 ms select full speed *)
Theorem C161_full : forall k rb, 1 <= k -> forall c0 pre c2 w y,
  length c0 = k + 2 -> short_runs (4 * k + 1) pre -> ended pre -> length c2 = k ->
  changes (last c2 SE0) w <= 5 -> length w + 1 = 5 * k ->
  let l := c0 ++ pre ++ repeat SE0 (4 * k + 2) ++ c2 ++ w ++ [y] in
  map seen (outs (ng_step k rb) (ng_init None) l) =
    repeat (None, false) (k + 2 + length pre + (4 * k + 2)) ++ repeat (None, true) k ++ repeat (None, false) (length w + 1) /\
  o_speed (ng_o rb (final (ng_step k rb) (ng_init None) l)) = Some FullSpeed.
Proof. exact to_fs. Qed.
(** the speed is kept until a reset, and a reset (10 ms after the last change) starts the negotiation again *)
Theorem C161_keep : forall k rb l s v, o_speed (ng_o rb s) = Some v -> Forall (fun o => o_rst o = false) (outs (ng_step k rb) s l) ->
  Forall (fun o => o_speed o = Some v) (outs (ng_step k rb) s l) /\ o_speed (ng_o rb (final (ng_step k rb) s l)) = Some v.
Proof. exact keep. Qed.
Theorem C161_again_full : forall k rb, 1 <= k -> forall l0 s i,
  Forall (fun o => o_speed o <> None) (outs (ng_step k rb) s (l0 ++ [i])) -> 10 * k + 1 <= length l0 -> o_rst (ng_o rb (final (ng_step k rb) s l0)) = true ->
  forall pre c2 w y, short_runs (4 * k + 1) pre -> ended pre -> length c2 = k -> changes (last c2 SE0) w <= 5 -> length w + 1 = 5 * k ->
  let s1 := final (ng_step k rb) s (l0 ++ [i]) in let l := pre ++ repeat SE0 (4 * k + 2) ++ c2 ++ w ++ [y] in
  map seen (outs (ng_step k rb) s1 l) = repeat (None, false) (length pre + (4 * k + 2)) ++ repeat (None, true) k ++ repeat (None, false) (length w + 1) /\
  o_speed (ng_o rb (final (ng_step k rb) s1 l)) = Some FullSpeed.
Proof. exact again_fs. Qed.
Theorem C161_again_high_partial : forall k rb, 1 <= k -> forall l0 s i,
  Forall (fun o => o_speed o <> None) (outs (ng_step k rb) s (l0 ++ [i])) -> 10 * k + 1 <= length l0 -> o_rst (ng_o rb (final (ng_step k rb) s l0)) = true ->
  forall pre c2 w x y, short_runs (4 * k + 1) pre -> ended pre -> length c2 = k ->
  changes (last c2 SE0) w = 5 -> changes (last c2 SE0) (w ++ [x]) = 6 -> length w + 2 <= 5 * k ->
  let s1 := final (ng_step k rb) s (l0 ++ [i]) in let l := pre ++ repeat SE0 (4 * k + 2) ++ c2 ++ w ++ [x; y] in
  map seen (outs (ng_step k rb) s1 l) = repeat (None, false) (length pre + (4 * k + 2)) ++ repeat (None, true) k ++ repeat (None, false) (length w + 2) /\
  o_speed (ng_o rb (final (ng_step k rb) s1 l)) = Some HighSpeed.
Proof. exact again_hs. Qed.
(** the chirp may be longer than 1 ms (the reset ends at its first cycle); high speed is selected although the host sent no chirp J *)
Theorem C161_long_chirp_refuted : exists k rb l n, 1 <= k /\ k < n /\
  exists a, map (fun o => o_chirp o) (outs (ng_step k rb) (ng_init None) l) = a ++ repeat true n.
Proof. exact long_chirp_refuted. Qed.
Theorem C161_no_chirp_j_refuted : exists k rb l, 1 <= k /\ ~ In LJ l /\ o_speed (ng_o rb (final (ng_step k rb) (ng_init None) l)) = Some HighSpeed.
Proof. exact no_j_refuted. Qed.

Print Assumptions C161_reset. Print Assumptions C161_chirp_after_se0. Print Assumptions C161_high_partial. Print Assumptions C161_full.
Print Assumptions C161_keep. Print Assumptions C161_again_full. Print Assumptions C161_again_high_partial. Print Assumptions C161_long_chirp_refuted. Print Assumptions C161_no_chirp_j_refuted.

(** 2 cycles per ms: idle J with a short SE0, reset, chirp K, then chirps of the host *)
Example C161_high_case :
  let k := 2 in let pre := [LJ; SE0; SE0; SE0; LJ] in let c2 := [LK; LK] in let w := [SE0; LK; LJ; LK; LJ] in
  short_runs (4 * k + 1) pre /\ ended pre /\ length c2 = k /\ changes (last c2 SE0) w = 5 /\ changes (last c2 SE0) (w ++ [LK]) = 6 /\ length w + 2 <= 5 * k.
Proof.
  cbv zeta. split; [|repeat split; cbn; auto with arith].
  intros a b E. repeat (destruct a as [|? a]; [cbn; auto with arith|cbn in E; injection E as <- E]; cbn [se0_run] in * ). destruct a; [cbn; auto with arith|discriminate].
Qed.
Example C161_full_case :
  let k := 2 in let c2 := [LK; LK] in let w := [SE0; SE0; SE0; LK; SE0; SE0; SE0; SE0; SE0] in changes (last c2 SE0) w <= 5 /\ length w + 1 = 5 * k.
Proof. cbn. auto with arith. Qed.
(** a reset in high speed *)
Example C161_again_case : let l := repeat SE0 11 in
  Forall (fun o => o_speed o <> None) (outs (ng_step 1 2) (ng_init (Some HighSpeed)) (l ++ [SE0])) /\ 10 * 1 + 1 <= length l /\
  o_rst (ng_o 2 (final (ng_step 1 2) (ng_init (Some HighSpeed)) l)) = true.
Proof. cbv zeta. split; [lazy; repeat constructor; discriminate|]. split; [cbn; auto with arith|reflexivity]. Qed.
