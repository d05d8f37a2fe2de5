(** AxiInterconnectMatrix (hwtLib/amba/axi_comp/interconnect/matrix.py): the configuration of the interconnects inside. *)
From Verif Require Import Base InterconnectModel XbarSpec MatrixModel MatrixSpec MatrixProofs MatrixCases.

(** C91: a request passes from a master to a slave exactly if the master may access the slave in this way and the slave owns the address; no port is connected twice; and every interconnect inside is one for which C88 and C89 hold.
    Proved if sets are iterated in the ascending order, every master may read and write something, and a slave which is written (read) by any master may be written (read) by all masters which see it. *)
Theorem C91_matrix_access_partial :
  forall (iter : list nat -> list nat) (MASTERS : list (list (nat * access))) (SLAVES : list (nat * nat)),
  iterates iter -> ascending iter -> valid_cfg MASTERS SLAVES ->
  (forall a m s m', a <> RW -> sees MASTERS m s -> may MASTERS a m' s -> may MASTERS a m s) ->
  (forall a m, a <> RW -> m < length MASTERS -> exists s, may MASTERS a m s) ->
  (forall s, s < length SLAVES -> exists m, sees MASTERS m s) ->
  exists r w, elaborate iter MASTERS SLAVES = Some (r, w) /\
  forall a l, (a = RD /\ l = r) \/ (a = WR /\ l = w) ->
    (forall m x s, reaches l m x s <-> may MASTERS a m s /\ exists r, nth_error SLAVES s = Some r /\ owns r x) /\
    once l sb_mc /\ once l sb_sc /\
    Forall (fun sb => (length (sb_masters sb) = 1 /\ length (sb_slaves sb) = 1) \/ shared (length (sb_masters sb)) (length (sb_slaves sb)) (sub_conn sb)) l.
Proof. exact c91. Qed.
Example C91_matrix_access_partial_nonvacuous :
  iterates sorted /\ ascending sorted /\
  (valid_cfg cfg_m cfg_s /\ (forall a m s m', a <> RW -> sees cfg_m m s -> may cfg_m a m' s -> may cfg_m a m s) /\
   (forall a m, a <> RW -> m < length cfg_m -> exists s, may cfg_m a m s) /\ (forall s, s < length cfg_s -> exists m, sees cfg_m m s)) /\
  elaborate sorted cfg_m cfg_s =
    Some ([mk_sub [[0; 1]; [1; 2]] [(0, 64); (64, 64); (128, 64)] [(0, 0); (1, 1)] [(0, 0); (1, 1); (2, 2)]; mk_sub [[0]] [(192, 64)] [(2, 0)] [(3, 0)]],
          [mk_sub [[0]; [0; 1]] [(64, 64); (128, 64)] [(0, 0); (1, 1)] [(1, 0); (2, 1)]; mk_sub [[0]] [(192, 64)] [(2, 0)] [(3, 0)]]).
Proof. split; [exact sorted_iterates|]. split; [exact sorted_ascending|]. split; [exact cfg_ok|]. vm_compute. reflexivity. Qed.

(** the access type is ignored inside of a group: master 0 writes to slave 0 which it may only read *)
Theorem C91_access_type_refuted : exists MASTERS SLAVES r w m s x,
  valid_cfg MASTERS SLAVES /\ elaborate sorted MASTERS SLAVES = Some (r, w) /\ reaches w m x s /\ ~ may MASTERS WR m s.
Proof.
  exists access_m, [(0, 64); (64, 64)]. eexists. eexists. exists 0, 0, 5. split; [|split; [vm_compute; reflexivity|split]].
  - intros m s (l & e & E & H). destruct m as [|[|m]]; cbn in E; [injection E as <-..|destruct m; discriminate]; cbn in H; intuition; match goal with H : (_, _) = (_, _) |- _ => injection H as <- <- end; cbn; lia.
  - eexists. exists 0, 0. eexists. eexists. split; [left; reflexivity|]. cbn. split; [left; reflexivity|]. split; [left; reflexivity|]. split; [reflexivity|]. split; [left; reflexivity|]. split; [reflexivity|]. unfold owns. cbn. lia.
  - intros (l & e & E & H & He). cbn in E. injection E as <-. cbn in H. intuition congruence.
Qed.
(** a master which only writes cannot be configured *)
Theorem C91_write_only_refuted : exists MASTERS SLAVES,
  valid_cfg MASTERS SLAVES /\ (forall m, m < length MASTERS -> exists s, sees MASTERS m s) /\ (forall s, s < length SLAVES -> exists m, sees MASTERS m s) /\ elaborate sorted MASTERS SLAVES = None.
Proof.
  exists [[(0, RW)]; [(0, WR)]], [(0, 64)]. split; [|split; [|split]].
  - intros m s (l & e & E & H). destruct m as [|[|m]]; cbn in E; [injection E as <-..|destruct m; discriminate]; cbn in H; intuition; match goal with H : (_, _) = (_, _) |- _ => injection H as <- <- end; cbn; lia.
  - intros [|[|m]] Hm; [exists 0, [(0, RW)], RW|exists 0, [(0, WR)], WR|cbn in Hm; lia]; cbn; auto.
  - intros [|s] Hs; [exists 0, [(0, RW)], RW; cbn; auto|cbn in Hs; lia].
  - vm_compute. reflexivity.
Qed.
(** if a set is not iterated in the ascending order (as CPython does with {1, 8}), an address of slave 8 goes to slave 1 *)
Theorem C91_set_order_refuted : exists iter MASTERS SLAVES r w m s x,
  iterates iter /\ elaborate iter MASTERS SLAVES = Some (r, w) /\ reaches r m x s /\ ~ (exists g, nth_error SLAVES s = Some g /\ owns g x).
Proof.
  exists cpython, order_m, order_s. eexists. eexists. exists 0, 1, 130. split; [exact cpython_iterates|]. split; [vm_compute; reflexivity|]. split.
  - eexists. exists 0, 0. eexists. eexists. split; [left; reflexivity|]. cbn. split; [left; reflexivity|]. split; [left; reflexivity|]. split; [reflexivity|]. split; [left; reflexivity|]. split; [reflexivity|]. unfold owns. cbn. lia.
  - intros (g & E & H). cbn in E. injection E as <-. unfold owns in H. cbn in H. lia.
Qed.

Print Assumptions C91_matrix_access_partial.
Print Assumptions C91_access_type_refuted.
Print Assumptions C91_write_only_refuted.
Print Assumptions C91_set_order_refuted.
