(** Axi4S_frameParser (hwtLib/amba/axis_comp/frame_parser) for structures of constant size. *)
From Verif Require Import Base FpModel FpSpec FpProofs FpCases.

(** C95: the output of every field gets this field of every frame, once and in order; it gets it when the last word of the field is offered, and that word is accepted only after the field was taken *)
Theorem C95_fields : forall W fields src lst, proper W fields -> (forall k, length (src k) = W) ->
  forall r0 is, let N := nwords W fields in let t := trace (p_step W fields false false) (p_init fields r0) is in feeds src lst 0 t -> forall j, is_field fields j ->
  taken j t = map (fun n => bits (offset fields j) (width fields j) (frame src N n)) (seq 0 (length (taken j t))) /\
  (forall n, n * N + ends_in W fields j < eaten t -> n < length (taken j t)) /\ (forall n, n < length (taken j t) -> n * N + ends_in W fields j <= eaten t).
Proof. exact t_frames. Qed.
Example C95_fields_nonvacuous : proper 8 fl1 /\ is_field fl1 0 /\ is_field fl1 4 /\ nwords 8 fl1 = 4 /\
  let t := trace (p_step 8 fl1 false false) (p_init fl1 r00) frun1 in feeds fsrc fl_lst0 0 t /\ eaten t = 12 /\
  map (fun j => map tonat (taken j t)) [0; 2; 3; 4] = [[1553; 2725; 3641]; [11; 15; 3]; [1; 2; 0]; [513; 83; 674]].
Proof.
  split. { split; [lia|]. split; [discriminate|]. cbn. intros f [<-|[<-|[<-|[<-|[<-|[]]]]]]; cbn; lia. }
  split; [split; [cbn; lia|reflexivity]|]. split; [split; [cbn; lia|reflexivity]|]. split; [reflexivity|]. cbn zeta. split; [apply feedsb_ok; vm_compute; reflexivity|]. vm_compute. auto.
Qed.

(** C95: a field is offered exactly while the word with its end is offered and the field was not taken; no field waits for another one *)
Theorem C95_offer : forall W fields src lst, proper W fields -> (forall k, length (src k) = W) ->
  forall r0 is i, let t := trace (p_step W fields false false) (p_init fields r0) is in let o := snd (p_step W fields false false (final (p_step W fields false false) (p_init fields r0) is) i) in
  feeds src lst 0 (t ++ [(i, o)]) -> i_v i = true -> forall j, is_field fields j ->
  (o_v o j = true <-> place false (nwords W fields) lst (eaten t) = ends_in W fields j /\ length (taken j t) = length (due W fields false lst j (eaten t))).
Proof. exact (fun W fields src lst HP HS => t_offer W fields false false src lst HP HS (fun H => match Bool.diff_false_true H with end) (fun _ H => match Bool.diff_false_true H with end)). Qed.
(** C95: a word is accepted exactly when all fields which end in it have been taken (in this cycle or before) *)
Theorem C95_accept : forall W fields src lst, proper W fields -> (forall k, length (src k) = W) ->
  forall r0 is i, let t := trace (p_step W fields false false) (p_init fields r0) is in let o := snd (p_step W fields false false (final (p_step W fields false false) (p_init fields r0) is) i) in
  feeds src lst 0 (t ++ [(i, o)]) -> i_v i = true ->
  (o_r o = true <-> forall j, is_field fields j -> place false (nwords W fields) lst (eaten t) = ends_in W fields j -> length (taken j (t ++ [(i, o)])) = S (length (due W fields false lst j (eaten t)))).
Proof. exact (fun W fields src lst HP HS => t_accept W fields false false src lst HP HS (fun H => match Bool.diff_false_true H with end) (fun _ H => match Bool.diff_false_true H with end)). Qed.
(** the word with fields 2 and 3 is offered five times: field 3 is taken in the first cycle and field 2 in the last one *)
Example C95_offer_nonvacuous : let t := trace (p_step 8 fl1 false false) (p_init fl1 r00) frun1 in feeds fsrc fl_lst0 0 t /\
  map (fun c => (i_v (fst c), (o_v (snd c) 2, i_frd (fst c) 2), (o_v (snd c) 3, i_frd (fst c) 3), o_r (snd c))) (firstn 6 (skipn 10 t)) =
  [(true, (true, false), (true, true), false); (true, (true, false), (false, true), false); (false, (false, true), (false, true), true);
   (true, (true, false), (false, false), false); (true, (true, false), (false, true), false); (true, (true, true), (false, true), true)].
Proof. cbn zeta. split; [apply feedsb_ok; vm_compute; reflexivity|]. vm_compute. reflexivity. Qed.

(** C96: frames ended by the mark of the last word: every field gets its values of exactly those frames which contain its end, also after shorter frames (UNDERFLOW_SUPPORT) and longer frames (OVERFLOW_SUPPORT). Proved for structures of whole words if longer frames are supported. *)
Theorem C96_fields_partial : forall W fields OVF UNF src lst, proper W fields -> (forall k, length (src k) = W) ->
  (OVF = true -> list_sum (map f_w fields) mod W = 0) ->
  (OVF = false -> UNF = true -> forall k, place (OVF || UNF) (nwords W fields) lst k = nwords W fields - 1 -> lst k = true) ->
  forall r0 is, let t := trace (p_step W fields OVF UNF) (p_init fields r0) is in feeds src lst 0 t -> forall j, is_field fields j ->
  exists x, (x = [] \/ x = [eaten t] /\ place (OVF || UNF) (nwords W fields) lst (eaten t) = ends_in W fields j) /\
            taken j t = map (value W fields src j) (due W fields (OVF || UNF) lst j (eaten t) ++ x).
Proof. exact t_values. Qed.
Example C96_fields_partial_nonvacuous : list_sum (map f_w fl1) mod 8 = 0 /\
  let t := trace (p_step 8 fl1 true false) (p_init fl1 r00) frun2 in feeds fsrc fl_lst1 0 t /\ map (place true 4 fl_lst1) (seq 0 15) = [0; 1; 2; 3; 0; 1; 0; 1; 2; 3; 4; 4; 4; 4; 0] /\
  map (fun j => map tonat (taken j t)) [0; 2; 3; 4] = [[1553; 2725; 1263; 3095]; [11; 9; 1]; [1; 3; 2]; [513; 376; 537]] /\ due 8 fl1 true fl_lst1 0 (eaten t) = [1; 5; 7; 15] /\ due 8 fl1 true fl_lst1 4 (eaten t) = [3; 9; 17].
Proof. split; [reflexivity|]. cbn zeta. split; [apply feedsb_ok; vm_compute; reflexivity|]. vm_compute. auto. Qed.
Example C96_fields_partial_nonvacuous2 : (forall k, place true 4 fl_lst2 k = 3 -> fl_lst2 k = true) /\
  let t := trace (p_step 8 fl1 false true) (p_init fl1 r00) frun3 in feeds fsrc fl_lst2 0 t /\ map (place true 4 fl_lst2) (seq 0 13) = [0; 1; 2; 3; 0; 1; 0; 1; 0; 1; 2; 3; 0] /\
  map (fun j => map tonat (taken j t)) [0; 4] = [[1553; 2725; 1263; 3641; 717; 1633; 2805]; [513; 674; 240; 834; 400]].
Proof. split; [exact fl_lst2_short|]. cbn zeta. split; [apply feedsb_ok; vm_compute; reflexivity|]. vm_compute. auto. Qed.
(** C96: a word is accepted exactly when all fields which end in it have been taken; words behind the structure are accepted *)
Theorem C96_accept_partial : forall W fields OVF UNF src lst, proper W fields -> (forall k, length (src k) = W) ->
  (OVF = true -> list_sum (map f_w fields) mod W = 0) ->
  (OVF = false -> UNF = true -> forall k, place (OVF || UNF) (nwords W fields) lst k = nwords W fields - 1 -> lst k = true) ->
  forall r0 is i, let t := trace (p_step W fields OVF UNF) (p_init fields r0) is in let o := snd (p_step W fields OVF UNF (final (p_step W fields OVF UNF) (p_init fields r0) is) i) in
  feeds src lst 0 (t ++ [(i, o)]) -> i_v i = true ->
  (o_r o = true <-> forall j, is_field fields j -> place (OVF || UNF) (nwords W fields) lst (eaten t) = ends_in W fields j -> length (taken j (t ++ [(i, o)])) = S (length (due W fields (OVF || UNF) lst j (eaten t)))).
Proof. exact t_accept. Qed.
(** C96: a field is offered exactly while the word with its end is offered and the field was not taken *)
Theorem C96_offer_partial : forall W fields OVF UNF src lst, proper W fields -> (forall k, length (src k) = W) ->
  (OVF = true -> list_sum (map f_w fields) mod W = 0) ->
  (OVF = false -> UNF = true -> forall k, place (OVF || UNF) (nwords W fields) lst k = nwords W fields - 1 -> lst k = true) ->
  forall r0 is i, let t := trace (p_step W fields OVF UNF) (p_init fields r0) is in let o := snd (p_step W fields OVF UNF (final (p_step W fields OVF UNF) (p_init fields r0) is) i) in
  feeds src lst 0 (t ++ [(i, o)]) -> i_v i = true -> forall j, is_field fields j ->
  (o_v o j = true <-> place (OVF || UNF) (nwords W fields) lst (eaten t) = ends_in W fields j /\ length (taken j t) = length (due W fields (OVF || UNF) lst j (eaten t))).
Proof. exact t_offer. Qed.
(** C96: parsing_overflow is 1 exactly behind the structure *)
Theorem C96_overflow_partial : forall W fields OVF UNF src lst, proper W fields -> (forall k, length (src k) = W) ->
  (OVF = true -> list_sum (map f_w fields) mod W = 0) ->
  (OVF = false -> UNF = true -> forall k, place (OVF || UNF) (nwords W fields) lst k = nwords W fields - 1 -> lst k = true) ->
  forall r0 is i, let t := trace (p_step W fields OVF UNF) (p_init fields r0) is in let o := snd (p_step W fields OVF UNF (final (p_step W fields OVF UNF) (p_init fields r0) is) i) in
  OVF = true -> feeds src lst 0 t -> (o_ovf o = true <-> place true (nwords W fields) lst (eaten t) = nwords W fields).
Proof. exact t_overflow. Qed.
Example C96_overflow_partial_nonvacuous : map (fun c => o_ovf (snd c)) (skipn 15 (trace (p_step 8 fl1 true false) (p_init fl1 r00) (firstn 24 frun2))) = [false; false; true; true; true; true; true; false; false].
Proof. vm_compute. reflexivity. Qed.
(** C96: error_underflow is 1 exactly when the last word of a frame is accepted before the end of the structure (without OVERFLOW_SUPPORT) *)
Theorem C96_underflow_partial : forall W fields OVF UNF src lst, proper W fields -> (forall k, length (src k) = W) ->
  (OVF = true -> list_sum (map f_w fields) mod W = 0) ->
  (OVF = false -> UNF = true -> forall k, place (OVF || UNF) (nwords W fields) lst k = nwords W fields - 1 -> lst k = true) ->
  forall r0 is i, let t := trace (p_step W fields OVF UNF) (p_init fields r0) is in let o := snd (p_step W fields OVF UNF (final (p_step W fields OVF UNF) (p_init fields r0) is) i) in
  OVF = false -> UNF = true -> feeds src lst 0 (t ++ [(i, o)]) -> (o_unf o = true <-> i_v i = true /\ o_r o = true /\ lst (eaten t) = true /\ place true (nwords W fields) lst (eaten t) < nwords W fields - 1).
Proof. exact t_underflow. Qed.
Example C96_underflow_partial_nonvacuous : map (fun c => o_unf (snd c)) (skipn 8 (trace (p_step 8 fl1 false true) (p_init fl1 r00) (firstn 14 frun3))) = [false; true; false; true; false; false].
Proof. vm_compute. reflexivity. Qed.

(** OVERFLOW_SUPPORT and a structure which does not end at the end of a word: fields which end in the last word are never given out, here the second field of frames with exactly the size of the structure, with all outputs ready *)
Theorem C96_last_word_refuted : exists W fields lst is, let t := trace (p_step W fields true false) (p_init fields r00) is in
  proper W fields /\ (forall k, length (fsrc k) = W) /\ is_field fields 1 /\ feeds fsrc lst 0 t /\ eaten t = 6 /\ due W fields true lst 1 (eaten t) = [1; 3; 5] /\ taken 1 t = [].
Proof.
  exists 8, fl2, (fl_every 2), frun4. cbn zeta. split. { split; [lia|]. split; [discriminate|]. cbn. intros f [<-|[<-|[]]]; cbn; lia. }
  split; [reflexivity|]. split; [split; [cbn; lia|reflexivity]|]. split; [apply feedsb_ok; vm_compute; reflexivity|]. vm_compute. auto.
Qed.
(** OVERFLOW_SUPPORT with UNDERFLOW_SUPPORT: the end of a frame which is longer than the structure is reported as underflow *)
Theorem C96_long_as_short_refuted : exists W fields lst is i, let t := trace (p_step W fields true true) (p_init fields r00) is in
  let o := snd (p_step W fields true true (final (p_step W fields true true) (p_init fields r00) is) i) in
  proper W fields /\ list_sum (map f_w fields) mod W = 0 /\ feeds fsrc lst 0 (t ++ [(i, o)]) /\ place true (nwords W fields) lst (eaten t) = nwords W fields /\ o_ovf o = true /\ o_unf o = true.
Proof.
  exists 8, fl3, (fl_every 3), (firstn 2 frun5), (nth 2 frun5 (mk_pi false [] false (fun _ => false))). cbn zeta. split. { split; [lia|]. split; [discriminate|]. cbn. intros f [<-|[<-|[]]]; cbn; lia. }
  split; [reflexivity|]. split; [apply feedsb_ok; vm_compute; reflexivity|]. vm_compute. auto.
Qed.
(** without OVERFLOW_SUPPORT a longer frame blocks the input for ever (why C96_fields_partial asks for frames which are not longer) *)
Theorem C96_long_frame_blocks : exists W fields lst is, let s := final (p_step W fields false true) (p_init fields r00) is in
  proper W fields /\ feeds fsrc lst 0 (trace (p_step W fields false true) (p_init fields r00) is) /\ forall is', eaten (trace (p_step W fields false true) s is') = 0.
Proof.
  exists 8, fl4, (fl_every 4), (frun6 4). cbn zeta. split. { split; [lia|]. split; [discriminate|]. cbn. intros f [<-|[<-|[<-|[]]]]; cbn; lia. }
  split; [apply feedsb_ok; vm_compute; reflexivity|]. intros is'. apply fl4_stuck. vm_compute. reflexivity.
Qed.

Print Assumptions C95_fields.
Print Assumptions C95_offer.
Print Assumptions C95_accept.
Print Assumptions C96_fields_partial.
Print Assumptions C96_accept_partial.
Print Assumptions C96_offer_partial.
Print Assumptions C96_overflow_partial.
Print Assumptions C96_underflow_partial.
Print Assumptions C96_last_word_refuted.
Print Assumptions C96_long_as_short_refuted.
Print Assumptions C96_long_frame_blocks.
