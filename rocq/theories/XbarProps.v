(** AxiInterconnectMatrixR and AxiInterconnectMatrixW (hwtLib/amba/axi_comp/interconnect). *)
From Verif Require Import Base FifoModel HsRegModel XbarModel XbarSpec XbarProofs XbarExcl XbarKeep XbarCases.

(** C88: all reads of a run form one list of requests; each goes to the slave which owns its address, every master and every slave sees its requests in the order of the list, and its data are the data of its requests one after another. *)
Theorem C88_read_routing :
  forall (NM NS AW DEPTH : nat) (conn : nat -> nat -> bool) (region : nat -> nat * nat),
  regions_ok AW NS region -> shared NM NS conn -> 0 < NM -> 2 <= DEPTH ->
  forall (A B : Type) (lst : A -> bool) (d : nat -> nat * B) (fs fm : nat -> (nat -> option nat) * option nat) (is : list (xr_in A B)),
  Forall (ar_fits NM AW) is ->
  let t := trace (xr_step NM NS AW DEPTH conn region lst) (xr_init NM DEPTH d fs fm) is in
  exists L : list (tx A B), sent_right NM NS conn region L /\
    (forall m, m < NM -> in_order lst (of_m m L) /\ r_to m t = map Some (words (of_m m L)) /\
       exists inside, ar_from m t = map tx_a (of_m m L) ++ inside /\ length inside <= 1) /\
    (forall s, s < NS -> in_order lst (of_s s L) /\ r_from s t = words (of_s s L) /\ ar_to s t = map (at_slave region) (of_s s L)).
Proof. exact (fun NM NS AW DEPTH conn region H1 H2 H3 H4 A B => @c88 NM NS AW DEPTH conn region H1 H2 H3 H4 A B). Qed.
Example C88_read_routing_nonvacuous :
  regions_ok 8 2 region2 /\ shared 2 2 conn2 /\ Forall (ar_fits 2 8) run_r /\
  let t := trace st_r init_r run_r in
  ar_from 0 t = [(5, 1); (71, 3)] /\ ar_from 1 t = [(70, 2); (6, 4)] /\ ar_to 0 t = [Some (5, 1); Some (6, 4)] /\ ar_to 1 t = [Some (6, 2); Some (7, 3)] /\
  r_to 0 t = [Some (50, false); Some (51, true); Some (61, false); Some (62, true)] /\ r_to 1 t = [Some (60, true); Some (52, true)].
Proof. split; [exact region2_ok|]. split; [exact conn2_shared|]. split; [apply ar_fits_sound; vm_compute; reflexivity|]. vm_compute. repeat split; reflexivity. Qed.

(** C88: if some slave has an unanswered request (taken before the last cycle), all masters accept data and every slave with an unanswered request offers data, then a word of data is transferred to a master. *)
Theorem C88_read_progress :
  forall (NM NS AW DEPTH : nat) (conn : nat -> nat -> bool) (region : nat -> nat * nat),
  regions_ok AW NS region -> shared NM NS conn -> 0 < NM -> 2 <= DEPTH ->
  forall (A B : Type) (lst : A -> bool) (d : nat -> nat * B) (fs fm : nat -> (nat -> option nat) * option nat) (is : list (xr_in A B)) (i1 i2 : xr_in A B),
  Forall (ar_fits NM AW) (is ++ [i1]) ->
  let run := fun l => trace (xr_step NM NS AW DEPTH conn region lst) (xr_init NM DEPTH d fs fm) l in
  let t0 := run is in let t1 := run (is ++ [i1]) in let t2 := run (is ++ [i1; i2]) in
  (exists s, s < NS /\ finished lst (r_from s t1) < length (ar_to s t0)) ->
  (forall m, m < NM -> ri_rrd i2 m = true) ->
  (forall s, s < NS -> finished lst (r_from s t1) < length (ar_to s t1) -> exists w, ri_r i2 s = Some w) ->
  exists m, m < NM /\ length (r_to m t1) < length (r_to m t2).
Proof. exact (fun NM NS AW DEPTH conn region H1 H2 H3 H4 A B => @c88_live NM NS AW DEPTH conn region H1 H2 H3 H4 A B). Qed.
Example C88_read_progress_nonvacuous :
  Forall (ar_fits 2 8) (pre_r ++ [i1_r]) /\
  let run := fun l => trace st_r init_r l in
  let t0 := run pre_r in let t1 := run (pre_r ++ [i1_r]) in let t2 := run (pre_r ++ [i1_r; i2_r]) in
  (exists s, s < 2 /\ finished lst2 (r_from s t1) < length (ar_to s t0)) /\ (forall m, m < 2 -> ri_rrd i2_r m = true) /\
  (forall s, s < 2 -> finished lst2 (r_from s t1) < length (ar_to s t1) -> exists w, ri_r i2_r s = Some w) /\
  length (r_to 0 t1) = 0 /\ length (r_to 0 t2) = 1.
Proof.
  split; [apply ar_fits_sound; vm_compute; reflexivity|]. split; [exists 0; split; [lia|vm_compute; lia]|]. split; [intros m _; reflexivity|]. split; [intros [|[|]] Hs _; [eexists; reflexivity|eexists; reflexivity|lia]|]. split; vm_compute; reflexivity.
Qed.

(** C88: a master which offers a request to a connected slave has it accepted within as many cycles as there are masters, if the slaves are ready and neither the master nor any slave reaches the limit of outstanding requests. *)
Theorem C88_read_fair :
  forall (NM NS AW DEPTH : nat) (conn : nat -> nat -> bool) (region : nat -> nat * nat),
  regions_ok AW NS region -> shared NM NS conn -> 0 < NM -> 2 <= DEPTH ->
  forall (A B : Type) (lst : A -> bool) (d : nat -> nat * B) (fs fm : nat -> (nat -> option nat) * option nat) (is js : list (xr_in A B)) (m : nat),
  m < NM -> length js = NM ->
  Forall (fun i => forall m, m < NM -> ri_arv i m = true -> mapped NS conn region m (fst (ri_ar i m))) (is ++ js) ->
  Forall (fun i => ri_arv i m = true /\ forall s, s < NS -> ri_ard i s = true) js ->
  let run := fun l => trace (xr_step NM NS AW DEPTH conn region lst) (xr_init NM DEPTH d fs fm) l in
  (forall k, k < NM -> let t := run (is ++ firstn k js) in
     length (ar_from m t) < finished_o lst (r_to m t) + (DEPTH - 1) /\
     forall s, s < NS -> length (ar_to s t) < finished lst (r_from s t) + (DEPTH - 1)) ->
  length (ar_from m (run is)) < length (ar_from m (run (is ++ js))).
Proof. exact (fun NM NS AW DEPTH conn region H1 H2 H3 H4 A B => @c88_fair NM NS AW DEPTH conn region H1 H2 H3 H4 A B). Qed.
Example C88_read_fair_nonvacuous :
  Forall (fun i => forall m, m < 2 -> ri_arv i m = true -> mapped 2 conn2 region2 m (fst (ri_ar i m))) (run_r ++ js_r) /\
  Forall (fun i => ri_arv i 1 = true /\ forall s, s < 2 -> ri_ard i s = true) js_r /\
  let run := fun l => trace st_r init_r l in
  (forall k, k < 2 -> let t := run (run_r ++ firstn k js_r) in
     length (ar_from 1 t) < finished_o lst2 (r_to 1 t) + (4 - 1) /\
     forall s, s < 2 -> length (ar_to s t) < finished lst2 (r_from s t) + (4 - 1)) /\
  length (ar_from 1 (run run_r)) = 2 /\ length (ar_from 1 (run (run_r ++ js_r))) = 4.
Proof.
  split; [|split; [repeat constructor|split]].
  - apply Forall_forall. intros i Hi m Hm Hv. apply map_sound. revert m Hm Hv.
    assert (forallb (fun i => forallb (fun m => map_b (fst (ri_ar i m))) (seq 0 2)) (run_r ++ js_r) = true) as E by (vm_compute; reflexivity).
    rewrite forallb_forall in E. specialize (E i Hi). rewrite forallb_forall in E. intros m Hm _. apply E. apply in_seq. lia.
  - intros [|[|k]] Hk; [| |lia]; (split; [vm_compute; lia|intros [|[|s]] Hs; [| |lia]; vm_compute; lia]).
  - vm_compute. split; reflexivity.
Qed.

(** C88: in every configuration the requests reach the slave which owns the address, in the order of every master. *)
Theorem C88_read_addresses :
  forall (NM NS AW DEPTH : nat) (conn : nat -> nat -> bool) (region : nat -> nat * nat),
  regions_ok AW NS region -> 0 < NM -> 2 <= DEPTH ->
  forall (A B : Type) (lst : A -> bool) (d : nat -> nat * B) (fs fm : nat -> (nat -> option nat) * option nat) (is : list (xr_in A B)),
  Forall (ar_fits NM AW) is ->
  let t := trace (xr_step NM NS AW DEPTH conn region lst) (xr_init NM DEPTH d fs fm) is in
  exists L : list (tx A B), sent_right NM NS conn region L /\
    (forall m, m < NM -> exists inside, ar_from m t = map tx_a (of_m m L) ++ inside /\ length inside <= 1) /\
    (forall s, s < NS -> ar_to s t = map (at_slave region) (of_s s L)).
Proof. exact (fun NM NS AW DEPTH conn region H1 H3 H4 A B => @r_addr NM NS AW DEPTH conn region H1 H3 H4 A B). Qed.
Example C88_read_addresses_nonvacuous :
  Forall (ar_fits 2 8) wait_r /\
  let t := trace (xr_step 2 2 8 4 (fun m s => m =? s) region2 lst2) init_r wait_r in ar_from 0 t = [(5, 1)] /\ ar_to 0 t = [Some (5, 1)].
Proof. split; [apply ar_fits_sound; vm_compute; reflexivity|]. vm_compute. split; reflexivity. Qed.

(** C88: a master and a slave connected only to each other: the master gets exactly the words of the slave. *)
Theorem C88_read_pair :
  forall (NM NS AW DEPTH : nat) (conn : nat -> nat -> bool) (region : nat -> nat * nat)
    (A B : Type) (lst : A -> bool) (d : nat -> nat * B) (fs fm : nat -> (nat -> option nat) * option nat) (is : list (xr_in A B)) (m s : nat),
  m < NM -> s < NS -> alone NM NS conn m s ->
  let t := trace (xr_step NM NS AW DEPTH conn region lst) (xr_init NM DEPTH d fs fm) is in
  r_to m t = map Some (r_from s t).
Proof. exact (fun NM NS AW DEPTH conn region A B lst d fs fm => @r_pair NM NS AW DEPTH conn region A B lst (xr_init NM DEPTH d fs fm)). Qed.
Example C88_read_pair_nonvacuous :
  alone 2 2 conn_x 0 1 /\
  let t := trace (xr_step 2 2 8 4 conn_x region2 lst2) init_r run_r in r_to 0 t = [Some (60, true); Some (61, false); Some (61, false); Some (62, true)].
Proof. split; [exact conn_x_alone|]. vm_compute. reflexivity. Qed.

(** C88: outside of the address map: an accepted request for an address which belongs to no connected slave blocks its master forever. *)
Theorem C88_unmapped_blocks :
  forall (NM NS AW DEPTH : nat) (conn : nat -> nat -> bool) (region : nat -> nat * nat),
  regions_ok AW NS region -> 0 < NM -> 2 <= DEPTH ->
  forall (A B : Type) (lst : A -> bool) (d : nat -> nat * B) (fs fm : nat -> (nat -> option nat) * option nat) (is : list (xr_in A B)) (i : xr_in A B) (m : nat) (js : list (xr_in A B)),
  m < NM ->
  let step := xr_step NM NS AW DEPTH conn region lst in let q := final step (xr_init NM DEPTH d fs fm) is in
  ri_arv i m = true -> ro_ard (snd (step q i)) m = true -> fst (ri_ar i m) < 2 ^ AW -> ~ mapped NS conn region m (fst (ri_ar i m)) ->
  Forall (fun o => ro_ard o m = false) (outs step (fst (step q i)) js).
Proof. exact (fun NM NS AW DEPTH conn region H1 H3 H4 A B => @c88_unmapped NM NS AW DEPTH conn region H1 H3 H4 A B). Qed.
Example C88_unmapped_blocks_nonvacuous :
  ri_arv un_r 0 = true /\ ro_ard (snd (st_r (final st_r init_r run_r) un_r)) 0 = true /\ fst (ri_ar un_r 0) < 2 ^ 8 /\ ~ mapped 2 conn2 region2 0 (fst (ri_ar un_r 0)).
Proof.
  split; [reflexivity|]. split; [vm_compute; reflexivity|]. split; [vm_compute; lia|]. intros (s & Hs & _ & H). destruct s as [|[|]]; [| |lia]; unfold owns in H; cbn in H; lia.
Qed.

(** C89: all writes of a run form one list of requests, with the data of each (in Lw) and the response to each (in Lb); each goes to the slave which owns its address, every master and every slave sees its requests, data and responses in the order of the list. *)
Theorem C89_write_routing :
  forall (NM NS AW DEPTH : nat) (conn : nat -> nat -> bool) (region : nat -> nat * nat),
  regions_ok AW NS region -> shared NM NS conn -> 0 < NM -> 2 <= DEPTH ->
  forall (A B R : Type) (lst : A -> bool) (tog : bool) (d : nat -> nat * B) (fsw fmw fsb fmb : nat -> (nat -> option nat) * option nat)
    (w : nat -> A) (a : nat -> option (nat * B)) (is : list (xw_in A B R)),
  Forall (aw_fits NM AW) is ->
  let t := trace (xw_step NM NS AW DEPTH conn region lst tog) (xw_init NM DEPTH d fsw fmw fsb fmb w a) is in
  exists (Lw : list (tx A B)) (Lb : list (tx R B)), map req Lw = map req Lb /\ sent_right NM NS conn region Lw /\
    (forall m, m < NM -> in_order lst (of_m m Lw) /\ in_order (fun _ => true) (of_m m Lb) /\ b_to m t = map Some (words (of_m m Lb)) /\
       (exists inside, aw_from m t = map tx_a (of_m m Lw) ++ inside /\ length inside <= 1) /\
       (exists inside, w_from m t = words (of_m m Lw) ++ inside /\ length inside <= if tog then 1 else 0)) /\
    (forall s, s < NS -> in_order lst (of_s s Lw) /\ in_order (fun _ => true) (of_s s Lb) /\ b_from s t = words (of_s s Lb) /\
       w_to s t = map Some (words (of_s s Lw)) /\
       (exists inside, map (at_slave region) (of_s s Lw) = aw_to s t ++ inside /\ length inside <= if tog then 1 else 0)).
Proof. exact (fun NM NS AW DEPTH conn region H1 H2 H3 H4 A B R => @c89 NM NS AW DEPTH conn region H1 H2 H3 H4 A B R). Qed.
Example C89_write_routing_nonvacuous :
  regions_ok 8 2 region2 /\ shared 2 2 conn2 /\ Forall (aw_fits 2 8) run_w /\
  let t := trace (st_w true) init_w run_w in
  aw_to 0 t = [Some (5, 1); Some (6, 4)] /\ aw_to 1 t = [Some (6, 2); Some (7, 3)] /\
  w_to 0 t = [Some (10, false); Some (10, false); Some (11, true); Some (20, true)] /\ w_to 1 t = [Some (20, true); Some (12, true)] /\
  b_to 0 t = [Some 30; Some 40] /\ b_to 1 t = [Some 40; Some 30].
Proof. split; [exact region2_ok|]. split; [exact conn2_shared|]. split; [apply aw_fits_sound; vm_compute; reflexivity|]. vm_compute. repeat split; reflexivity. Qed.

(** C89: if some slave has an unanswered request (taken before the last cycle), the masters offer the data of their requests, the slaves accept everything, and every slave with an unanswered request with complete data responds, then a word of data or a response is transferred. *)
Theorem C89_write_progress :
  forall (NM NS AW DEPTH : nat) (conn : nat -> nat -> bool) (region : nat -> nat * nat),
  regions_ok AW NS region -> shared NM NS conn -> 0 < NM -> 2 <= DEPTH ->
  forall (A B R : Type) (lst : A -> bool) (tog : bool) (d : nat -> nat * B) (fsw fmw fsb fmb : nat -> (nat -> option nat) * option nat)
    (w : nat -> A) (a : nat -> option (nat * B)) (is : list (xw_in A B R)) (i1 i2 : xw_in A B R),
  Forall (aw_fits NM AW) (is ++ [i1]) ->
  let run := fun l => trace (xw_step NM NS AW DEPTH conn region lst tog) (xw_init NM DEPTH d fsw fmw fsb fmb w a) l in
  let t0 := run is in let t1 := run (is ++ [i1]) in let t2 := run (is ++ [i1; i2]) in
  (exists s, s < NS /\ length (b_from s t1) < length (aw_to s t0)) ->
  (forall m, m < NM -> (finished lst (w_from m t0) < length (aw_from m t0) -> wi_wv i1 m = true) /\
     (finished lst (w_from m t1) < length (aw_from m t1) -> wi_wv i2 m = true) /\ wi_brd i2 m = true) ->
  (forall s, s < NS -> wi_ard i1 s = true /\ wi_wrd i2 s = true /\
     (length (b_from s t1) < length (aw_to s t1) -> length (b_from s t1) < finished_o lst (w_to s t1) -> exists r, wi_b i2 s = Some r)) ->
  (exists s, s < NS /\ length (w_to s t1) < length (w_to s t2)) \/ (exists m, m < NM /\ length (b_to m t1) < length (b_to m t2)).
Proof. exact (fun NM NS AW DEPTH conn region H1 H2 H3 H4 A B R => @c89_live NM NS AW DEPTH conn region H1 H2 H3 H4 A B R). Qed.
Example C89_write_progress_nonvacuous :
  Forall (aw_fits 2 8) (pre_w ++ [i1_w]) /\
  let run := fun l => trace (st_w true) init_w l in
  let t0 := run pre_w in let t1 := run (pre_w ++ [i1_w]) in let t2 := run (pre_w ++ [i1_w; i2_w]) in
  (exists s, s < 2 /\ length (b_from s t1) < length (aw_to s t0)) /\
  (forall m, m < 2 -> (finished lst2 (w_from m t0) < length (aw_from m t0) -> wi_wv i1_w m = true) /\
     (finished lst2 (w_from m t1) < length (aw_from m t1) -> wi_wv i2_w m = true) /\ wi_brd i2_w m = true) /\
  (forall s, s < 2 -> wi_ard i1_w s = true /\ wi_wrd i2_w s = true /\
     (length (b_from s t1) < length (aw_to s t1) -> length (b_from s t1) < finished_o lst2 (w_to s t1) -> exists r, wi_b i2_w s = Some r)) /\
  length (w_to 0 t1) = 0 /\ length (w_to 0 t2) = 1.
Proof.
  split; [apply aw_fits_sound; vm_compute; reflexivity|]. split; [exists 0; split; [lia|vm_compute; lia]|]. split; [intros [|[|]] Hm; [| |lia]; (split; [intros _; reflexivity|split; [intros _; reflexivity|reflexivity]])|]. split; [intros [|[|]] Hm; [| |lia]; (split; [reflexivity|split; [reflexivity|intros _ _; eexists; reflexivity]])|]. split; vm_compute; reflexivity.
Qed.

(** C89: a master which offers a write request to a connected slave has it accepted within as many cycles as there are masters, if the slaves are ready and the limit of outstanding requests is not reached. *)
Theorem C89_write_fair :
  forall (NM NS AW DEPTH : nat) (conn : nat -> nat -> bool) (region : nat -> nat * nat),
  regions_ok AW NS region -> shared NM NS conn -> 0 < NM -> 2 <= DEPTH ->
  forall (A B R : Type) (lst : A -> bool) (tog : bool) (d : nat -> nat * B) (fsw fmw fsb fmb : nat -> (nat -> option nat) * option nat)
    (w : nat -> A) (a : nat -> option (nat * B)) (is js : list (xw_in A B R)) (m : nat),
  m < NM -> length js = NM ->
  let run := fun l => trace (xw_step NM NS AW DEPTH conn region lst tog) (xw_init NM DEPTH d fsw fmw fsb fmb w a) l in
  Forall (fun i => forall m, m < NM -> wi_awv i m = true -> mapped NS conn region m (fst (wi_aw i m))) (is ++ js) ->
  Forall (fun i => wi_awv i m = true /\ forall s, s < NS -> wi_ard i s = true) js ->
  (forall k, k < NM -> let t := run (is ++ firstn k js) in
     S (length (aw_from m t)) < finished lst (w_from m t) + (DEPTH - 1) /\ S (length (aw_from m t)) < length (b_to m t) + (DEPTH - 1) /\
     forall s, s < NS -> S (length (aw_to s t)) < finished_o lst (w_to s t) + (DEPTH - 1) /\ S (length (aw_to s t)) < length (b_from s t) + (DEPTH - 1)) ->
  length (aw_from m (run is)) < length (aw_from m (run (is ++ js))).
Proof. exact (fun NM NS AW DEPTH conn region H1 H2 H3 H4 A B R => @c89_fair NM NS AW DEPTH conn region H1 H2 H3 H4 A B R). Qed.
Example C89_write_fair_nonvacuous :
  Forall (fun i => forall m, m < 2 -> wi_awv i m = true -> mapped 2 conn2 region2 m (fst (wi_aw i m))) js_w /\
  Forall (fun i => wi_awv i 1 = true /\ forall s, s < 2 -> wi_ard i s = true) js_w /\
  let run := fun l => trace (st_w true) init_w l in
  (forall k, k < 2 -> let t := run (firstn k js_w) in
     S (length (aw_from 1 t)) < finished lst2 (w_from 1 t) + (4 - 1) /\ S (length (aw_from 1 t)) < length (b_to 1 t) + (4 - 1) /\
     forall s, s < 2 -> S (length (aw_to s t)) < finished_o lst2 (w_to s t) + (4 - 1) /\ S (length (aw_to s t)) < length (b_from s t) + (4 - 1)) /\
  length (aw_from 1 (run js_w)) = 2.
Proof.
  split; [|split; [repeat constructor|split]].
  - apply Forall_forall. intros i Hi m Hm Hv. apply map_sound. revert m Hm Hv.
    assert (forallb (fun i => forallb (fun m => map_b (fst (wi_aw i m))) (seq 0 2)) js_w = true) as E by (vm_compute; reflexivity).
    rewrite forallb_forall in E. specialize (E i Hi). rewrite forallb_forall in E. intros m Hm _. apply E. apply in_seq. lia.
  - intros [|[|k]] Hk; [| |lia]; (split; [vm_compute; lia|split; [vm_compute; lia|intros [|[|s]] Hs; [| |lia]; vm_compute; lia]]).
  - vm_compute. reflexivity.
Qed.

(** C89: a master and a slave connected only to each other: the slave gets exactly the data of the master, the master exactly the responses of the slave. *)
Theorem C89_write_pair :
  forall (NM NS AW DEPTH : nat) (conn : nat -> nat -> bool) (region : nat -> nat * nat)
    (A B R : Type) (lst : A -> bool) (tog : bool) (d : nat -> nat * B) (fsw fmw fsb fmb : nat -> (nat -> option nat) * option nat)
    (w : nat -> A) (a : nat -> option (nat * B)) (is : list (xw_in A B R)) (m s : nat),
  m < NM -> s < NS -> alone NM NS conn m s ->
  let t := trace (xw_step NM NS AW DEPTH conn region lst tog) (xw_init NM DEPTH d fsw fmw fsb fmb w a) is in
  b_to m t = map Some (b_from s t) /\
  exists sent inside, w_from m t = sent ++ inside /\ length inside <= (if tog then 1 else 0) /\ w_to s t = map Some sent.
Proof.
  exact (fun NM NS AW DEPTH conn region A B R lst tog d fsw fmw fsb fmb w a is m s H1 H2 H3 =>
    @w_pair NM NS AW DEPTH conn region A B R lst tog (xw_init NM DEPTH d fsw fmw fsb fmb w a) is m s H1 H2 H3 (match tog with true => eq_refl | false => eq_refl end)).
Qed.
Example C89_write_pair_nonvacuous :
  alone 2 2 conn_x 0 1 /\
  let t := trace (xw_step 2 2 8 4 conn_x region2 lst2 true) init_w run_w in
  w_to 1 t = [Some (10, false); Some (10, false); Some (10, false); Some (10, false); Some (11, true); Some (12, true); Some (12, true)] /\ b_to 0 t = [Some 40; Some 40; Some 41; Some 41].
Proof. split; [exact conn_x_alone|]. vm_compute. split; reflexivity. Qed.

(** C90: a request offered to a slave stays on its channel until the slave takes it. True if AW_AND_W_WORD_TOGETHER. *)
Theorem C90_offer_stays_partial :
  forall (NM NS AW DEPTH : nat) (conn : nat -> nat -> bool) (region : nat -> nat * nat)
    (A B R : Type) (lst : A -> bool) (d : nat -> nat * B) (fsw fmw fsb fmb : nat -> (nat -> option nat) * option nat)
    (w : nat -> A) (a : nat -> option (nat * B)) (is : list (xw_in A B R)) (s : nat),
  aw_stays s (trace (xw_step NM NS AW DEPTH conn region lst true) (xw_init NM DEPTH d fsw fmw fsb fmb w a) is).
Proof.
  exact (fun NM NS AW DEPTH conn region A B R lst d fsw fmw fsb fmb w a is s =>
    @aw_stays_run NM NS AW DEPTH conn region A B R lst true (xw_init NM DEPTH d fsw fmw fsb fmb w a) is s eq_refl (fun _ => eq_refl)).
Qed.
Example C90_offer_stays_partial_nonvacuous :
  map (fun c => (wo_awv (snd c) 0, wo_aw (snd c) 0, wi_ard (fst c) 0)) (trace (st_w true) init_w wait_w) =
    [(false, None, false); (false, None, false); (true, Some (5, 1), false); (true, Some (5, 1), true)].
Proof. vm_compute. reflexivity. Qed.
(** the payload is undefined until the slave is ready *)
Theorem C90_offer_stays_refuted :
  (exists is, Forall (ar_fits 2 8) is /\ ~ ar_stays 0 (trace st_r init_r is)) /\ (exists is, Forall (aw_fits 2 8) is /\ ~ aw_stays 0 (trace (st_w false) init_w is)).
Proof.
  split.
  - exists wait_r. split; [apply ar_fits_sound; vm_compute; reflexivity|]. intros H. cut (Some (5, 1) = None); [discriminate|]. refine (ar_stays_view _ 1 None true (Some (5, 1)) true H _ _); vm_compute; reflexivity.
  - exists wait_w. split; [apply aw_fits_sound; vm_compute; reflexivity|]. intros H. cut (Some (5, 1) = None); [discriminate|]. refine (aw_stays_view _ 2 None true (Some (5, 1)) true H _ _); vm_compute; reflexivity.
Qed.
(** the offer itself is never withdrawn *)
Theorem C90_offer_waits_partial :
  forall (NM NS AW DEPTH : nat) (conn : nat -> nat -> bool) (region : nat -> nat * nat),
  regions_ok AW NS region -> 0 < NM -> 2 <= DEPTH ->
  forall (A B R : Type) (lst : A -> bool),
  (forall (d : nat -> nat * B) (fs fm : nat -> (nat -> option nat) * option nat) (is : list (xr_in A B)) (s : nat), s < NS -> Forall (ar_fits NM AW) is ->
     ar_waits s (trace (xr_step NM NS AW DEPTH conn region lst) (xr_init NM DEPTH d fs fm) is)) /\
  (forall (tog : bool) (d : nat -> nat * B) (fsw fmw fsb fmb : nat -> (nat -> option nat) * option nat) (w : nat -> A) (a : nat -> option (nat * B)) (is : list (xw_in A B R)) (s : nat),
     s < NS -> Forall (aw_fits NM AW) is ->
     aw_waits s (trace (xw_step NM NS AW DEPTH conn region lst tog) (xw_init NM DEPTH d fsw fmw fsb fmb w a) is)).
Proof.
  exact (fun NM NS AW DEPTH conn region H1 H3 H4 A B R lst =>
    conj (@ar_waits_run NM NS AW DEPTH conn region H1 H3 H4 A B lst) (@aw_waits_run NM NS AW DEPTH conn region H1 H3 H4 A B R lst)).
Qed.
Example C90_offer_waits_partial_nonvacuous :
  map (fun c => (ro_arv (snd c) 0, ri_ard (fst c) 0)) (trace st_r init_r wait_r) = [(false, false); (true, false); (true, true)] /\
  map (fun c => (wo_awv (snd c) 0, wi_ard (fst c) 0)) (trace (st_w false) init_w wait_w) = [(false, false); (true, false); (true, false); (true, true)].
Proof. vm_compute. split; reflexivity. Qed.

Print Assumptions C88_read_routing.
Print Assumptions C88_read_progress.
Print Assumptions C88_read_fair.
Print Assumptions C88_read_addresses.
Print Assumptions C88_read_pair.
Print Assumptions C88_unmapped_blocks.
Print Assumptions C89_write_routing.
Print Assumptions C89_write_progress.
Print Assumptions C89_write_fair.
Print Assumptions C89_write_pair.
Print Assumptions C90_offer_stays_partial.
Print Assumptions C90_offer_stays_refuted.
Print Assumptions C90_offer_waits_partial.
