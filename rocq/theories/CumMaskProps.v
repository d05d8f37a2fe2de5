From Verif Require Import Base CumMaskModel CumMaskSpec CumMaskProofs.

(** C77: reads of RamCumulativeMask return the data and the cumulative mask; not in the cycles in which an accumulating write is offered *)
Theorem C77_cumulative_mask_read_partial : forall (B : Type) nb m0 n (is : list (cm_in B)) t1 x y t2,
  cm_kept (trace (cm_step nb) (cm_init m0 n) is) -> trace (cm_step nb) (cm_init m0 n) is = t1 ++ x :: y :: t2 ->
  c_rv (fst x) = true -> w_vld (c_w (fst x)) && w_acc (c_w (fst x)) && negb (w_ow (c_w (fst x))) = false ->
  cm_shows nb m0 t1 (c_ra (fst x)) (co_d (snd y)).
Proof. exact @read_ok. Qed.
Print Assumptions C77_cumulative_mask_read_partial.

(** the other read ports: always *)
Theorem C77_cumulative_mask_other_ports : forall (B : Type) nb m0 n (is : list (cm_in B)) t1 x y t2 k a,
  cm_kept (trace (cm_step nb) (cm_init m0 n) is) -> Forall (fun i => length (c_x i) = n) is ->
  trace (cm_step nb) (cm_init m0 n) is = t1 ++ x :: y :: t2 -> nth_error (c_x (fst x)) k = Some (true, a) ->
  exists d, nth_error (co_x (snd y)) k = Some d /\ cm_shows nb m0 t1 a d.
Proof. exact @xread_ok. Qed.
Print Assumptions C77_cumulative_mask_other_ports.

(** a write waits for at most one cycle *)
Theorem C77_cumulative_mask_write_wait : forall (B : Type) nb m0 n (is : list (cm_in B)) t1 x y t2,
  cm_kept (trace (cm_step nb) (cm_init m0 n) is) -> trace (cm_step nb) (cm_init m0 n) is = t1 ++ x :: y :: t2 ->
  w_vld (c_w (fst x)) = true -> co_wrd (snd x) = false -> co_wrd (snd y) = true.
Proof. exact @write_wait. Qed.
Print Assumptions C77_cumulative_mask_write_wait.

(** a read which is accepted with an accumulating write gets the word of the write *)
Theorem C77_cumulative_mask_read_refuted : exists nb (m0 : cm_mem nat) (is : list (cm_in nat)) t1 x y t2,
  cm_kept (trace (cm_step nb) (cm_init m0 0) is) /\ trace (cm_step nb) (cm_init m0 0) is = t1 ++ x :: y :: t2 /\
  c_rv (fst x) = true /\ co_rrd (snd x) = true /\ ~ cm_shows nb m0 t1 (c_ra (fst x)) (co_d (snd y)).
Proof. destruct cm_bad as [t1 [x [y [t2 H]]]]. exists 4, cm_bad_m, cm_bad_is, t1, x, y, t2. split; [exact cm_bad_kept|exact H]. Qed.
Print Assumptions C77_cumulative_mask_read_refuted.

(** bytes 0 and 1 are written, then byte 2 is added, then the word is read *)
Example C77_run : map (fun x => (co_wrd (snd x), co_rrd (snd x), match co_d (snd x) with Some d => Some (map (fst d) (seq 0 4), map (snd d) (seq 0 4)) | None => None end))
   (trace (cm_step 4) (cm_init (mk_cmm (fun _ _ => 0) (fun _ _ => true)) 0)
     [mk_cmi (mk_cmw true 5 (fun _ => 1) (fun b => b <? 2) true true) false 0 []; mk_cmi (mk_cmw true 5 (fun _ => 2) (fun b => b =? 2) true false) true 5 [];
      mk_cmi (mk_cmw true 5 (fun _ => 2) (fun b => b =? 2) true false) false 0 []; mk_cmi (mk_cmw false 5 (fun _ => 2) (fun b => b =? 2) false false) true 5 [];
      mk_cmi (mk_cmw false 5 (fun _ => 2) (fun b => b =? 2) false false) false 5 []]) =
  [(true, true, None); (false, false, None); (true, true, Some ([1; 1; 0; 0], [true; true; false; false]));
   (true, true, Some ([1; 1; 0; 0], [true; true; false; false])); (true, true, Some ([1; 1; 2; 0], [true; true; true; false]))].
Proof. vm_compute. reflexivity. Qed.
