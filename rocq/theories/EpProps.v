From Verif Require Import Base EpModel EpSpec EpInit EpCases.

(** C80: AxiLiteEndpoint; the data of memory reads is followed only if a read is not disturbed *)
Theorem C80_axilite_endpoint_partial : forall c aw ar rd ix m is, cfg_ok c -> Forall (fun i => li_aw i < 2 ^ e_aw c /\ li_ar i < 2 ^ e_aw c /\ din_ok c (li_din i)) is ->
  let t := trace (al_step c) (al_init aw ar rd ix m) is in l_calm c t -> l_law c true (l_start m) t.
Proof. exact (fun c aw ar rd ix m is Hc HF Hk => al_all c Hc true aw ar rd ix m is HF (fun _ => Hk)). Qed.
Print Assumptions C80_axilite_endpoint_partial.
(** everything but the data of memory reads, for all users *)
Theorem C80_axilite_registers : forall c aw ar rd ix m is, cfg_ok c -> Forall (fun i => li_aw i < 2 ^ e_aw c /\ li_ar i < 2 ^ e_aw c /\ din_ok c (li_din i)) is ->
  l_law c false (l_start m) (trace (al_step c) (al_init aw ar rd ix m) is).
Proof. exact (fun c aw ar rd ix m is Hc HF => al_all c Hc false aw ar rd ix m is HF (fun Q => False_ind _ (Bool.diff_false_true Q))). Qed.
Print Assumptions C80_axilite_registers.
(** an answer with a memory item which is not taken in its first cycle changes *)
Theorem C80_axilite_slow_reader_refuted : exists c is m, cfg_ok c /\ Forall (fun i => li_aw i < 2 ^ e_aw c /\ li_ar i < 2 ^ e_aw c /\ din_ok c (li_din i)) is /\
  Forall (fun i => li_awv i = false /\ li_wv i = false) is /\ ~ l_law c true (l_start m) (trace (al_step c) (al_init 0 0 None 0 m) is).
Proof. exact al_slow. Qed.
Print Assumptions C80_axilite_slow_reader_refuted.
(** a write in the cycle after an accepted memory read replaces the data of the read *)
Theorem C80_axilite_write_refuted : exists c is m, cfg_ok c /\ Forall (fun i => li_aw i < 2 ^ e_aw c /\ li_ar i < 2 ^ e_aw c /\ din_ok c (li_din i)) is /\
  Forall (fun i => li_r i = true /\ li_b i = true) is /\ ~ l_law c true (l_start m) (trace (al_step c) (al_init 0 0 None 0 m) is).
Proof. exact al_mixed. Qed.
Print Assumptions C80_axilite_write_refuted.
Example C80_slow_reader : map lo_r (outs (al_step ep_space) (al_init 0 0 None 0 ep_mem) ep_slow) = [None; None; Some (true, map Some (ep_w 2)); Some (true, ep_undef)].
Proof. vm_compute. reflexivity. Qed.
Example C80_write : map lo_r (outs (al_step ep_space) (al_init 0 0 None 0 ep_mem) ep_mixed) = [None; None; None; Some (true, map Some (ep_w 1))].
Proof. vm_compute. reflexivity. Qed.
(** word 1 is read and written, the memory at 36 is written and read *)
Notation C80_is := [ep_al true 4 false 0 true 4 true; ep_al true 40 true 9 false 0 true; ep_al false 0 false 0 false 0 true; ep_al true 40 false 5 true 24 true; ep_al false 0 false 0 false 40 true;
  ep_al false 0 true 5 false 0 true; ep_al false 0 false 0 true 40 true; ep_al false 0 false 0 false 0 true; ep_al false 0 false 0 false 0 true].
Example C80_calm : l_calm ep_space (trace (al_step ep_space) (al_init 0 0 None 0 ep_mem) C80_is).
Proof. vm_compute. intuition discriminate. Qed.
Example C80_reads : flat_map (fun o => match lo_r o with Some x => [x] | None => [] end) (outs (al_step ep_space) (al_init 0 0 None 0 ep_mem) C80_is) =
  [(true, ep_word1); (true, map Some (ep_w 2)); (true, map Some (ep_w 5))].
Proof. vm_compute. reflexivity. Qed.
Example C80_writes : map (fun o => lo_dout o 1) (outs (al_step ep_space) (al_init 0 0 None 0 ep_mem) C80_is) = [None; Some (firstn 16 (ep_w 9)); None; None; None; None; None; None; None].
Proof. vm_compute. reflexivity. Qed.
Example C80_space : cfg_ok ep_space /\ din_ok ep_space ep_din.
Proof. exact (conj ep_space_ok ep_din_ok). Qed.

(** C81: Mi32Endpoint *)
Theorem C81_mi32_endpoint : forall c r ix m is, cfg_ok c -> Forall (fun i => mi_addr i < 2 ^ e_aw c /\ din_ok c (mi_din i)) is ->
  me_law c m None (trace (me_step c) (me_init r ix m) is).
Proof. exact (fun c r ix m is Hc => me_all c Hc r ix m is). Qed.
Print Assumptions C81_mi32_endpoint.
Example C81_run : map mo_drd (outs (me_step ep_space) (me_init [] 0 ep_mem)
  [mk_mei true false 4 [] ep_din; mk_mei false true 36 (ep_w 7) ep_din; mk_mei true true 36 (ep_w 8) ep_din; mk_mei true false 36 [] ep_din; mk_mei true false 60 [] ep_din; mk_mei false false 0 [] ep_din]) =
  [None; Some ep_word1; None; Some (map Some (ep_w 7)); Some (map Some (ep_w 8)); None].
Proof. vm_compute. reflexivity. Qed.

(** C82: BramPortEndpoint *)
Theorem C82_bram_endpoint : forall c r ix m is, cfg_ok c -> Forall (fun i => bi_addr i < 2 ^ e_aw c /\ din_ok c (bi_din i)) is ->
  be_law c m None (trace (be_step c) (be_init r ix m) is).
Proof. exact (fun c r ix m is Hc => be_all c Hc r ix m is). Qed.
Print Assumptions C82_bram_endpoint.
Example C82_run : map bo_dout (outs (be_step ep_space) (be_init ep_undef 2 ep_mem)
  [mk_bei true false 4 [] ep_din; mk_bei true true 36 (ep_w 7) ep_din; mk_bei true false 36 [] ep_din; mk_bei true false 20 [] ep_din; mk_bei false false 0 [] ep_din]) =
  [ep_undef; ep_word1; map Some (ep_w 8); map Some (ep_w 7); map Some (ep_w 1)].
Proof. vm_compute. reflexivity. Qed.

(** C83: AvalonMmEndpoint *)
Theorem C83_avalon_endpoint : forall c ir a my m is, cfg_ok c -> Forall (fun i => vi_addr i < 2 ^ e_aw c /\ din_ok c (vi_din i)) is ->
  av_law c m None None (trace (av_step c) (av_init ir a my m) is).
Proof. exact (fun c ir a my m is Hc => av_all c Hc ir a my m is). Qed.
Print Assumptions C83_avalon_endpoint.
Example C83_run : map (fun o => (vo_rd o, vo_wrv o, vo_ok o)) (outs (av_step ep_space) (av_init false 0 (fun _ => false) ep_mem)
  [mk_avi true false 4 [] ep_din; mk_avi false true 36 (ep_w 7) ep_din; mk_avi true false 36 [] ep_din; mk_avi true false 60 [] ep_din; mk_avi false false 0 [] ep_din]) =
  [(None, false, false); (Some ep_word1, false, true); (None, true, true); (Some (map Some (ep_w 7)), false, true); (Some ep_undef, false, false)].
Proof. vm_compute. reflexivity. Qed.

(** C84: IpifEndpoint, for masters which keep a request until it is acknowledged *)
Theorem C84_ipif_endpoint : forall c m is, cfg_ok c -> Forall (fun i => pi_addr i < 2 ^ e_aw c /\ din_ok c (pi_din i)) is ->
  let t := trace (ip_step c) (ip_init m) is in ip_kept t -> ip_law c m false t.
Proof. exact (fun c m is Hc => ip_all c Hc m is). Qed.
Print Assumptions C84_ipif_endpoint.
Notation C84_is := [mk_ipi true true 4 [] ep_din; mk_ipi true true 4 [] ep_din; mk_ipi true false 36 (ep_w 7) ep_din; mk_ipi true false 36 (ep_w 7) ep_din; mk_ipi false false 0 [] ep_din;
  mk_ipi true true 36 [] ep_din; mk_ipi true true 36 [] ep_din].
Example C84_kept : ip_kept (trace (ip_step ep_space) (ip_init ep_mem) C84_is).
Proof. vm_compute. intuition discriminate. Qed.
Example C84_run : map (fun o => if po_rdack o then Some (po_d o) else None) (outs (ip_step ep_space) (ip_init ep_mem) C84_is) =
  [None; Some ep_word1; None; None; None; None; Some (map Some (ep_w 7))] /\ map po_wrack (outs (ip_step ep_space) (ip_init ep_mem) C84_is) = [false; false; false; true; false; false; false].
Proof. vm_compute. split; reflexivity. Qed.
