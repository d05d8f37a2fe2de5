(** C40: allocations of the simulation RAM and reads of its content. *)
From Verif Require Import Base BaseFacts SimRamModel SimRamSpec SimRamProofs.

(** [cs] is the size of a cell in bytes.  Missing: malloc of a size or at an offset which is not a multiple of a cell,
    refuted below. *)
Theorem C40_sim_ram_alloc_partial : forall cs os s rs, 0 < cs -> Forall (whole_cells cs) os ->
  do_allocs cs sr_init os = Some (s, rs) -> no_overlap rs.
Proof. exact sim_ram_alloc. Qed.
Print Assumptions C40_sim_ram_alloc_partial.

Theorem C40_sim_ram_no_error_partial : forall cs os s rs size k num, 0 < cs -> Forall (whole_cells cs) os ->
  do_allocs cs sr_init os = Some (s, rs) -> k mod cs = 0 ->
  (exists r, malloc cs s size k = Some r) /\ (exists r, calloc cs s num size k None = Some r).
Proof. exact sim_ram_no_error. Qed.
Print Assumptions C40_sim_ram_no_error_partial.
Example C40_sim_ram_alloc_witness : 0 < 4 /\ Forall (whole_cells 4) ex_ops /\
  option_map snd (do_allocs 4 sr_init ex_ops) = Some [(0, 8); (12, 6); (20, 5)].
Proof. exact ex_ops_ok. Qed.

(** two mallocs of half a cell get the same bytes; a malloc of one cell and a half is overlapped by the next one *)
Theorem C40_malloc_refuted :
  (exists s rs, do_allocs 4 sr_init [OMalloc 2 0; OMalloc 2 0] = Some (s, rs) /\ rs = [(0, 2); (0, 2)] /\ ~ no_overlap rs) /\
  (exists s rs, do_allocs 4 sr_init [OMalloc 6 0; OMalloc 4 0] = Some (s, rs) /\ rs = [(0, 6); (4, 4)] /\ ~ no_overlap rs).
Proof.
  split.
  - do 2 eexists. split; [vm_compute; reflexivity|]. split; [reflexivity|]. intros H.
    specialize (H 0 1 (0, 2) (0, 2) 0 eq_refl eq_refl). unfold in_reg in H. cbn in H. specialize (H ltac:(lia) ltac:(lia)). discriminate.
  - do 2 eexists. split; [vm_compute; reflexivity|]. split; [reflexivity|]. intros H.
    specialize (H 0 1 (0, 6) (4, 4) 4 eq_refl eq_refl). unfold in_reg in H. cbn in H. specialize (H ltac:(lia) ltac:(lia)). discriminate.
Qed.
Print Assumptions C40_malloc_refuted.

(** a bit range read returns exactly those bits of the cells, with their validity, for any content of the memory *)
Theorem C40_get_bits : forall cs, 0 < cs -> forall s start end_ i, start <= end_ ->
  N.testbit (fst (get_bits cs s start end_)) (N.of_nat i) = (i <? end_ - start) && fst (mem_bit cs s (start + i)) /\
  N.testbit (snd (get_bits cs s start end_)) (N.of_nat i) = (i <? end_ - start) && snd (mem_bit cs s (start + i)).
Proof. exact get_bits_spec. Qed.
Print Assumptions C40_get_bits.
Example C40_get_bits_witness : let s := mk_sr [(0, CInt 0xA5%N); (2, CVal 0x3C%N 0x0F%N)] 0 in
  0 < 1 /\ 4 <= 20 /\ get_bits 1 s 4 20 = (0xC00A, 0xF00F)%N.
Proof. vm_compute. repeat split; repeat constructor. Qed.

(** an initialised array reads back as written whatever is allocated later *)
Theorem C40_calloc_read : forall cs size n os s rs k vs,
  0 < cs -> 0 < size -> cs = n * size -> Forall (whole_cells cs) os -> do_allocs cs sr_init os = Some (s, rs) ->
  k mod cs = 0 -> Forall (fun v => (v < 2 ^ N.of_nat (size * 8))%N) vs ->
  exists s1 a, calloc cs s (length vs) size k (Some vs) = Some (s1, a) /\
    forall os2 s2 rs2, do_allocs cs s1 os2 = Some (s2, rs2) ->
      get_array cs s2 a size (length vs) = map (fun v => (v, N.ones (N.of_nat (size * 8)))) vs.
Proof. exact sim_ram_read. Qed.
Print Assumptions C40_calloc_read.
Example C40_calloc_read_witness : exists s rs, do_allocs 4 sr_init ex_ops = Some (s, rs) /\ 4 = 2 * 2 /\
  exists s1, calloc 4 s 3 2 8 (Some [1; 2; 3]%N) = Some (s1, 36) /\
  exists s2 rs2, do_allocs 4 s1 [OMalloc 4 0] = Some (s2, rs2) /\ get_array 4 s2 36 2 3 = [(1, 65535); (2, 65535); (3, 65535)]%N.
Proof.
  do 2 eexists. split; [vm_compute; reflexivity|]. split; [reflexivity|]. eexists. split; [vm_compute; reflexivity|].
  do 2 eexists. split; [vm_compute; reflexivity|]. vm_compute. reflexivity.
Qed.
