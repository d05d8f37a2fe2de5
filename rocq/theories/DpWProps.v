From Verif Require Import Base FifoModel DpModel DpSpec DpWModel DpWSpec DpWProofs DpCases DpWCases.

(** C75: what the write datapump writes, when and how it acknowledges.  The driver offers a word whenever the datapump sends one. *)
Theorem C75_write_datapump_partial : forall (B : Type) c xl (xb : B) a0 l0 m0 d0 m1 d1 p0 fs (is : list (wp_in B)),
  dp_cfg_ok c -> 2 <= WB c -> 2 <= OVERLAP c -> length p0 = WB c ->
  Forall (fun i => ui_bv i = true -> ui_okay i = true) is ->
  wp_kept (trace (wp_step c xl xb) (wp_init c a0 l0 m0 d0 m1 d1 p0) is) -> wp_driver c fs (trace (wp_step c xl xb) (wp_init c a0 l0 m0 d0 m1 d1 p0) is) ->
  wp_busy (trace (wp_step c xl xb) (wp_init c a0 l0 m0 d0 m1 d1 p0) is) ->
  wp_law c fs (trace (wp_step c xl xb) (wp_init c a0 l0 m0 d0 m1 d1 p0) is).
Proof. intros B c xl xb a0 l0 m0 d0 m1 d1 p0 fs is Hc HW HD Hp He Hk Hd Hb. exact (wp_run_law c xl xb a0 l0 m0 d0 m1 d1 p0 fs is Hc HW HD Hp He Hk Hd (or_introl Hb)). Qed.
Print Assumptions C75_write_datapump_partial.

(** The driver may wait at any time if all requests start at a bus word. *)
Theorem C75_write_datapump_word_aligned_partial : forall (B : Type) c xl (xb : B) a0 l0 m0 d0 m1 d1 p0 fs (is : list (wp_in B)),
  dp_cfg_ok c -> 2 <= WB c -> 2 <= OVERLAP c -> length p0 = WB c ->
  Forall (fun i => ui_bv i = true -> ui_okay i = true) is ->
  wp_kept (trace (wp_step c xl xb) (wp_init c a0 l0 m0 d0 m1 d1 p0) is) -> wp_driver c fs (trace (wp_step c xl xb) (wp_init c a0 l0 m0 d0 m1 d1 p0) is) ->
  Forall (fun f => q_addr (fst f) mod WB c = 0) fs ->
  wp_law c fs (trace (wp_step c xl xb) (wp_init c a0 l0 m0 d0 m1 d1 p0) is).
Proof. intros B c xl xb a0 l0 m0 d0 m1 d1 p0 fs is Hc HW HD Hp He Hk Hd Hb. exact (wp_run_law c xl xb a0 l0 m0 d0 m1 d1 p0 fs is Hc HW HD Hp He Hk Hd (or_intror Hb)). Qed.
Print Assumptions C75_write_datapump_word_aligned_partial.

Example C75_run : dp_cfg_ok cfg_un /\ Forall (fun i => ui_bv i = true -> ui_okay i = true) full_is /\ wp_kept full_t /\ wp_driver cfg_un [fa; fb] full_t /\ wp_busy full_t /\
  flat_map wp_burst full_t = [(0, 15); (256, 1)] /\ map snd (flat_map wp_beat full_t) = repeat false 15 ++ [true; false; true] /\
  length (flat_map wp_ack full_t) = 2 /\
  map (map snd) (map fst (firstn 2 (flat_map wp_beat full_t))) = [[false; true; true; true; true; true; true; true]; repeat true 8] /\
  flat_map (frame_writes cfg_un) [fa; fb] = bus_writes cfg_un (flat_map (beats 8 13) (flat_map wp_burst full_t)) (map fst (flat_map wp_beat full_t)).
Proof.
  split; [exact cfg_un_ok|]. split; [exact full_okay|]. split; [exact full_kept|]. split; [exact full_driver|]. split; [exact full_busy|]. vm_compute. repeat split.
Qed.

(** Without the guard it is false: the word counter is not cleared if the driver does not offer a word when the rest of an unaligned frame is sent. *)
Theorem C75_idle_driver_refuted : exists c fs (is : list (wp_in nat)) p0, dp_cfg_ok c /\ 2 <= WB c /\ 2 <= OVERLAP c /\ length p0 = WB c /\
  Forall (fun i => ui_bv i = true -> ui_okay i = true) is /\
  let t := trace (wp_step c 0 0) (wp_init c 0 0 (fun _ => mk_winfo 0 false) (mk_winfo 0 false) (fun _ => false) false p0) is in
  wp_kept t /\ wp_driver c fs t /\ ~ wp_law c fs t.
Proof.
  exists cfg_un, [fa; fb], gap_is, (fword 0). split; [exact cfg_un_ok|]. split; [cbn; repeat constructor|]. split; [cbn; repeat constructor|].
  split; [reflexivity|]. split; [exact gap_okay|]. split; [exact gap_kept|]. split; [exact gap_driver|exact gap_bad].
Qed.
Print Assumptions C75_idle_driver_refuted.

(** A request which is aligned as ALIGNAS says, but not to the bus word, stops the datapump for ever. *)
Theorem C75_narrow_alignas_refuted : exists c q, dp_cfg_ok c /\ 1 < AL c < WB c /\ dreq_ok c q /\ chunk_aligned c q /\ fits c q /\
  forall (i : wp_in nat) (is : list (wp_in nat)) xl xb a0 l0 m0 d0 m1 d1 p0, ui_vld i = true -> ui_req i = q ->
    let t := trace (wp_step c xl xb) (wp_init c a0 l0 m0 d0 m1 d1 p0) (i :: is) in
    Forall (fun x => uo_err (snd x) || uo_aerr (snd x) = true) (tl t) /\ flat_map wp_beat t = [].
Proof.
  exists cfg_half, half_q. split; [exact cfg_half_ok|]. split; [exact half_lt|]. split; [exact (proj1 half_ok)|]. split; [exact (proj1 (proj2 half_ok))|].
  split; [exact (proj2 (proj2 half_ok))|]. exact half_stops.
Qed.
Print Assumptions C75_narrow_alignas_refuted.

(** Once an error is flagged no burst is issued, no request is taken and no word is sent; an error answer or a request which is not aligned to
    the bus word (with ALIGNAS over a byte) is flagged in the next cycle and for ever. *)
Theorem C75_write_error : forall (B : Type) c xl (xb : B) a0 l0 m0 d0 m1 d1 p0 (is : list (wp_in B)) t1 x t2, dp_cfg_ok c -> 2 <= WB c ->
  trace (wp_step c xl xb) (wp_init c a0 l0 m0 d0 m1 d1 p0) is = t1 ++ x :: t2 ->
  (uo_err (snd x) || uo_aerr (snd x) = true -> flat_map wp_burst (x :: t2) = [] /\ flat_map wp_taken (x :: t2) = [] /\ flat_map wp_beat (x :: t2) = []) /\
  (ui_bv (fst x) && negb (ui_okay (fst x)) || negb (AL c =? 1) && ui_vld (fst x) && negb (q_addr (ui_req (fst x)) mod WB c =? 0) = true ->
     Forall (fun y => uo_err (snd y) || uo_aerr (snd y) = true) t2).
Proof. exact @wp_error. Qed.
Print Assumptions C75_write_error.

Example C75_error_run : map (fun x => (uo_aerr (snd x), uo_awv (snd x))) (trace (wp_step cfg_half 0 0)
    (wp_init cfg_half 0 0 (fun _ => mk_winfo 0 false) (mk_winfo 0 false) (fun _ => false) false (fword 0)) (repeat (win true half_q true (fword 1) true) 3)) =
  [(false, true); (true, false); (true, false)].
Proof. vm_compute. reflexivity. Qed.
