From Verif Require Import Base BaseFacts CrcModel CrcSpec CrcCatalogue CrcProofs.

(** The XOR matrix yields the remainder of state * x^|data| + data * x^pw (the top data bit is the first one),
    for every polynomial with constant term 1, and the remainder is unique. *)
Theorem C25_xor_matrix : forall (poly state data : list bool),
  hd false poly = true -> length state = length poly ->
  let r := apply_matrix (build_matrix (length data) poly) data state in
  length r = length poly /\
  is_remainder (length poly) (poly_of poly) (msg_poly (length poly) state (rev data)) (num r).
Proof. exact c25. Qed.
Print Assumptions C25_xor_matrix.
Example C25_witness : exists poly state data, hd false poly = true /\ length state = length poly /\
  num (apply_matrix (build_matrix (length data) poly) data state) = 6%N /\ length poly = 3.
Proof. exists [true; true; false], [false; false; false], [true; true; true; true; true; false]. repeat split. Qed.

Theorem C25_remainder_unique : forall (poly : list bool) (a r1 r2 : N),
  is_remainder (length poly) (poly_of poly) a r1 -> is_remainder (length poly) (poly_of poly) a r2 -> r1 = r2.
Proof. exact remainder_unique. Qed.
Print Assumptions C25_remainder_unique.

(** The polynomials without a constant term (outside the quantifier of C25) do not work: the lowest coefficient is ignored. *)
Theorem C25_needs_constant_term : exists (poly state data : list bool),
  hd false poly = false /\ length state = length poly /\
  ~ is_remainder (length poly) (poly_of poly) (msg_poly (length poly) state (rev data))
      (num (apply_matrix (build_matrix (length data) poly) data state)).
Proof. exact c25_even. Qed.
Print Assumptions C25_needs_constant_term.

(** CrcComb: INIT, REFIN, REFOUT, XOROUT and the byte order; XOROUT all zeros or all ones if REFOUT. *)
Theorem C26_crc_comb_partial : forall (c : crc_cfg) (bytes : list (list bool)),
  hd false (c_poly c) = true -> length (c_init c) = length (c_poly c) -> length (c_xorout c) = length (c_poly c) ->
  (c_refout c = true -> uniform (c_xorout c)) ->
  is_crc (c_poly c) (c_init c) (c_xorout c) (c_refin c) (c_refout c) (word_bytes (c_bigendian c) bytes) (crc_comb c bytes).
Proof. exact c25_comb. Qed.
Print Assumptions C26_crc_comb_partial.
Example C26_crc32_check : num (crc_comb crc32 check_msg) = 3421780262%N /\
  hd false (c_poly crc32) = true /\ uniform (c_xorout crc32).
Proof. split; [vm_compute; reflexivity|]. split; [reflexivity|exists true; reflexivity]. Qed.

(** With REFOUT the bits of every byte of XOROUT are reversed. *)
Theorem C26_crc_comb_xorout_refuted : exists (c : crc_cfg) (bytes : list (list bool)),
  hd false (c_poly c) = true /\ length (c_init c) = length (c_poly c) /\ length (c_xorout c) = length (c_poly c) /\
  ~ is_crc (c_poly c) (c_init c) (c_xorout c) (c_refin c) (c_refout c) (word_bytes (c_bigendian c) bytes) (crc_comb c bytes).
Proof. exact c25_comb_refuted. Qed.
Print Assumptions C26_crc_comb_xorout_refuted.

(** Crc with a mask: after the last word of a frame, dataOut is the CRC of the valid bytes of that frame, whatever
    frames came before; XOROUT has to be a palindrome. *)
Theorem C26_crc_frames_partial : forall (c : crc_cfg) (u t0 : list bool) (pre frame : list crc_in) (lst nxt : crc_in),
  hd false (c_poly c) = true -> length (c_init c) = length (c_poly c) -> length (c_xorout c) = length (c_poly c) ->
  c_bigendian c = false -> rev (c_xorout c) = c_xorout c ->
  Forall good_in (pre ++ frame ++ [lst]) -> at_frame_start pre ->
  Forall (fun i => ci_vld i && ci_last i = false) frame -> ci_vld lst = true ->
  is_crc (c_poly c) (c_init c) (c_xorout c) (c_refin c) (c_refout c) (concat (map cyc_bytes (frame ++ [lst])))
         (snd (crc_step c u (final (crc_step c u) (c_init c, t0) (pre ++ frame ++ [lst])) nxt)).
Proof. exact c26. Qed.
Print Assumptions C26_crc_frames_partial.
Example C26_frames_witness :
  Forall good_in (ex_pre ++ ex_frame ++ [ex_last]) /\ at_frame_start ex_pre /\
  Forall (fun i => ci_vld i && ci_last i = false) ex_frame /\ ci_vld ex_last = true /\
  concat (map cyc_bytes (ex_frame ++ [ex_last])) = check_msg /\
  num (snd (crc_step crc32 [] (final (crc_step crc32 []) (c_init crc32, []) (ex_pre ++ ex_frame ++ [ex_last])) ex_last)) = 3421780262%N.
Proof. exact c26_ex. Qed.

(** Crc without a mask: dataOut is the CRC of all words accepted so far (with LATENCY = 0 including this cycle). *)
Theorem C26_crc_words_partial : forall (c : crc_cfg) (lat0 : bool) (is : list (option (list (list bool)))) (i : option (list (list bool))),
  hd false (c_poly c) = true -> length (c_init c) = length (c_poly c) -> length (c_xorout c) = length (c_poly c) ->
  rev (c_xorout c) = c_xorout c ->
  is_crc (c_poly c) (c_init c) (c_xorout c) (c_refin c) (c_refout c)
         (concat (map (opt_bytes (c_bigendian c)) (if lat0 then is ++ [i] else is)))
         (snd (crcw_step c lat0 (final (crcw_step c lat0) (c_init c) is) i)).
Proof. exact c26_words. Qed.
Print Assumptions C26_crc_words_partial.
Example C26_words_witness :
  num (snd (crcw_step crc32 false (final (crcw_step crc32 false) (c_init crc32)
    [Some (firstn 4 check_msg); None; Some (skipn 4 check_msg)]) None)) = 3421780262%N /\
  rev (c_xorout crc32) = c_xorout crc32.
Proof. split; vm_compute; reflexivity. Qed.

(** XOROUT is applied with its bits reversed. *)
Theorem C26_crc_xorout_refuted : exists (c : crc_cfg) (word : list (list bool)),
  hd false (c_poly c) = true /\ length (c_init c) = length (c_poly c) /\ length (c_xorout c) = length (c_poly c) /\
  c_refout c = false /\
  ~ is_crc (c_poly c) (c_init c) (c_xorout c) (c_refin c) (c_refout c) (word_bytes (c_bigendian c) word)
      (snd (crcw_step c false (final (crcw_step c false) (c_init c) [Some word]) None)).
Proof. exact c26_refuted. Qed.
Print Assumptions C26_crc_xorout_refuted.

(** With any configuration of crcPoly.py: CrcComb, Crc without a mask, Crc with a mask. *)
Theorem C26_catalogue_comb : forall (cfg : bool -> crc_cfg) (be : bool) (bytes : list (list bool)), In cfg catalogue ->
  let c := cfg be in
  is_crc (c_poly c) (c_init c) (c_xorout c) (c_refin c) (c_refout c) (word_bytes be bytes) (crc_comb c bytes).
Proof. exact cat_comb. Qed.
Print Assumptions C26_catalogue_comb.

Theorem C26_catalogue_words : forall (cfg : bool -> crc_cfg) (be lat0 : bool)
    (is : list (option (list (list bool)))) (i : option (list (list bool))), In cfg catalogue ->
  let c := cfg be in
  is_crc (c_poly c) (c_init c) (c_xorout c) (c_refin c) (c_refout c)
         (concat (map (opt_bytes be) (if lat0 then is ++ [i] else is)))
         (snd (crcw_step c lat0 (final (crcw_step c lat0) (c_init c) is) i)).
Proof. exact cat_words. Qed.
Print Assumptions C26_catalogue_words.

Theorem C26_catalogue_frames : forall (cfg : bool -> crc_cfg) (u t0 : list bool) (pre frame : list crc_in) (lst nxt : crc_in),
  In cfg catalogue ->
  Forall good_in (pre ++ frame ++ [lst]) -> at_frame_start pre ->
  Forall (fun i => ci_vld i && ci_last i = false) frame -> ci_vld lst = true ->
  let c := cfg false in
  is_crc (c_poly c) (c_init c) (c_xorout c) (c_refin c) (c_refout c) (concat (map cyc_bytes (frame ++ [lst])))
         (snd (crc_step c u (final (crc_step c u) (c_init c, t0) (pre ++ frame ++ [lst])) nxt)).
Proof. exact cat_frames. Qed.
Print Assumptions C26_catalogue_frames.
Example C26_catalogue_witness : In (config 79764919 32 4294967295 true true 4294967295) catalogue /\ length catalogue = 60.
Proof. split; [unfold catalogue; repeat (try (left; reflexivity); right)|reflexivity]. Qed.
