From Verif Require Import Base FifoModel DpModel DpSpec DpProofs DpRModel DpRSpec DpRProofs DpCases.

(** C73: the bursts which the address part of the datapump issues cover exactly the words of the requests, in order. *)
Theorem C73_datapump_address_partial : forall c xl a0 l0 (is : list ah_in), dp_cfg_ok c -> 2 <= WB c ->
  Forall (fun i => ai_vld i = true -> dreq_ok c (ai_req i) /\ chunk_aligned c (ai_req i) /\ fits c (ai_req i)) is ->
  req_kept (trace (ah_step c xl) (ah_init a0 l0) is) -> ah_law c (trace (ah_step c xl) (ah_init a0 l0) is).
Proof. intros c xl a0 l0 is Hc HW Hi Hk. exact (inv_law c HW _ _ (ah_run c xl Hc HW a0 l0 is Hi Hk)). Qed.
Print Assumptions C73_datapump_address_partial.

Example C73_run : dp_cfg_ok cfg_un /\ Forall (fun i => ai_vld i = true -> dreq_ok cfg_un (ai_req i) /\ chunk_aligned cfg_un (ai_req i) /\ fits cfg_un (ai_req i)) un_is /\
  req_kept un_t /\
  flat_map ah_taken un_t = [un_q] /\
  flat_map ah_burst un_t = [(128, 15); (256, 2)] /\ word_addrs 8 13 un_q = map (fun k => 128 + 8 * k) (seq 0 19).
Proof. exact un_run. Qed.

(** without the guards it is false: MAX_LEN = 0, DATA_WIDTH = 8, CHUNK_WIDTH > ALIGNAS, MAX_LEN + 1 equal to the burst limit *)
Theorem C73_single_word_request_refuted : exists c q, dp_cfg_ok c /\ MAXLEN c = 0 /\ dreq_ok c q /\ req_kept (one c q) /\ ~ ah_law c (one c q).
Proof. exists cfg_len0, q_len0. exact (conj cfg_len0_ok (conj eq_refl (conj (proj1 len0_bad) (conj (one_kept _ _) (proj2 len0_bad))))). Qed.
Print Assumptions C73_single_word_request_refuted.
Theorem C73_byte_bus_refuted : exists c q, dp_cfg_ok c /\ WB c = 1 /\ dreq_ok c q /\ req_kept (one c q) /\ ~ ah_law c (one c q).
Proof. exists cfg_byte, q_byte. exact (conj cfg_byte_ok (conj eq_refl (conj (proj1 byte_bad) (conj (one_kept _ _) (proj2 byte_bad))))). Qed.
Print Assumptions C73_byte_bus_refuted.
Theorem C73_chunk_over_align_refuted : exists c q, dp_cfg_ok c /\ AL c < CB c /\ dreq_ok c q /\ req_kept (one c q) /\ ~ ah_law c (one c q).
Proof. exists cfg_chunk, q_chunk. exact (conj cfg_chunk_ok (conj chunk_lt (conj (proj1 chunk_bad) (conj (one_kept _ _) (proj2 chunk_bad))))). Qed.
Print Assumptions C73_chunk_over_align_refuted.
Theorem C73_len_overflow_refuted : exists c q, dp_cfg_ok c /\ MAXLEN c + 1 = 2 ^ LW c /\ dreq_ok c q /\ req_kept (one c q) /\ ~ ah_law c (one c q).
Proof. exists cfg_wrap, q_wrap. exact (conj cfg_wrap_ok (conj eq_refl (conj (proj1 wrap_bad) (conj (one_kept _ _) (proj2 wrap_bad))))). Qed.
Print Assumptions C73_len_overflow_refuted.

(** C74: the frames which the read datapump returns. *)
Theorem C74_read_datapump_partial : forall (D : Type) c xl a0 l0 m0 d0 (is : list (rp_in D)), dp_cfg_ok c -> 2 <= WB c -> AL c = WB c -> 2 <= OVERLAP c ->
  Forall (rp_env c) is ->
  rp_kept (trace (rp_step c xl) (rp_init c a0 l0 m0 d0) is) -> rp_answers c (trace (rp_step c xl) (rp_init c a0 l0 m0 d0) is) ->
  rp_law c (trace (rp_step c xl) (rp_init c a0 l0 m0 d0) is).
Proof. intros D c xl a0 l0 m0 d0 is Hc HW HA HO. exact (rp_run_law c xl Hc HW HA HO a0 l0 m0 d0 is). Qed.
Print Assumptions C74_read_datapump_partial.

Example C74_run : Forall (rp_env cfg3) rd_is /\ rp_kept rd_t /\ rp_answers cfg3 rd_t /\
  flat_map rp_taken rd_t = [rd_a; rd_b] /\ flat_map rp_burst rd_t = [(128, 15); (256, 1); (0, 0)] /\
  map fst (flat_map rp_word rd_t) = seq 100 19 /\
  map snd (flat_map rp_word rd_t) = repeat (repeat true 8, false) 17 ++ [([true; true; true; false; false; false; false; false], true); (repeat true 8, true)].
Proof. split; [exact rd_env|]. split; [exact rd_kept|]. split; [exact rd_answers|]. vm_compute. repeat split. Qed.

(** Once an error is flagged nothing is requested, taken or delivered; an error answer or a badly aligned address is flagged in the next cycle. *)
Theorem C74_read_error : forall (D : Type) c xl a0 l0 m0 d0 (is : list (rp_in D)) t1 x t2, AL c = WB c -> 2 <= WB c ->
  trace (rp_step c xl) (rp_init c a0 l0 m0 d0) is = t1 ++ x :: t2 ->
  (po_err (snd x) || po_aerr (snd x) = true ->
     flat_map rp_burst (x :: t2) = [] /\ flat_map rp_taken (x :: t2) = [] /\ flat_map rp_word (x :: t2) = []) /\
  (pi_v (fst x) && negb (pi_okay (fst x)) || pi_vld (fst x) && negb (q_addr (pi_req (fst x)) mod WB c =? 0) = true ->
     dp_cfg_ok c -> Forall (fun y => po_err (snd y) || po_aerr (snd y) = true) t2).
Proof. exact @rp_error. Qed.
Print Assumptions C74_read_error.

Example C74_error_run :
  map (fun x => (po_err (snd x), rp_word x)) (trace (rp_step cfg3 0) (rp_init cfg3 0 0 (fun _ => (0, false)) (0, false)) rd_err) =
  [(false, []); (false, []); (false, [(100, (repeat true 8, false))]); (false, [(101, (repeat true 8, false))]); (true, []); (true, [])].
Proof. vm_compute. reflexivity. Qed.
