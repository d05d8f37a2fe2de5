(** C134, C135, C136, C137, C138: Utmi_to_Ulpi. *)
From Verif Require Import Base UlpModel UlpSpec UlpProofs UlpCases.

(** Bytes which the PHY sends are exactly the bytes of utmi.rx, one cycle later, each of them while rx.active is high; rx.active is low after the bus has been returned;
    LineState is the one of the last RX CMD. *)
Theorem C134_receive : forall is i, seen (trace ulp_step ulp_init (is ++ [i])) = sent true (trace ulp_step ulp_init is) /\
  (let o := snd (ulp_step (final ulp_step ulp_init is) i) in (uo_rxv o = true -> uo_rxa o = true) /\ uo_ls o = last_line true 0 (trace ulp_step ulp_init is)).
Proof. exact (fun is i => conj (ulp_seen is i) (conj (ulp_active is i) (ulp_line is i))). Qed.
Print Assumptions C134_receive.
Theorem C134_end : forall is i j, p_dir (phy_of (trace ulp_step ulp_init is)) = true -> dir i = false ->
  uo_rxa (snd (ulp_step (final ulp_step ulp_init (is ++ [i])) j)) = false.
Proof. exact ulp_idle_rx. Qed.
Print Assumptions C134_end.
Example C134_witness : let t := trace ulp_step ulp_init rx_run in seen t = [105; 7; 9] /\ sent true t = [105; 7; 9] /\
  map (fun c => (uo_rxv (snd c), uo_rxa (snd c), uo_ls (snd c))) t =
  [(false, false, 0); (false, false, 2); (false, true, 1); (true, true, 1); (false, true, 1); (true, true, 1); (true, true, 1); (false, false, 2)].
Proof. vm_compute. repeat split. Qed.

(** The packets given to utmi.tx are, in order, exactly the packets which the PHY takes: of the packets ended on UTMI only the last may still wait for its stp
    (all of its bytes are taken), of an open packet at most the last byte is not taken. *)
Theorem C135_packets : forall is, phys_ok phy0 (trace ulp_step ulp_init is) ->
  let p := phy_of (trace ulp_step ulp_init is) in let u := utx_of (trace ulp_step ulp_init is) in
  (exists x, fst u = packets (p_done p) ++ [open_bytes p] /\ p_st p = PPkt x /\ snd u = None) \/
  (fst u = packets (p_done p) /\ match snd u with None => p_st p <> PPkt (open_bytes p) | Some l => exists b, l = open_bytes p ++ [b] end).
Proof. exact ulp_tx. Qed.
Print Assumptions C135_packets.
(** A byte taken from utmi.tx is on the bus in the next cycle, the first one of a packet as the transmit command with its PID. *)
Theorem C135_next : forall is i j, phys_ok phy0 (trace ulp_step ulp_init is) ->
  uo_rd (snd (ulp_step (final ulp_step ulp_init is) i)) = true -> txv i = true ->
  uo_d (snd (ulp_step (final ulp_step ulp_init (is ++ [i])) j)) =
  match snd (utx_of (trace ulp_step ulp_init is)) with None => 64 + txd i mod 16 | Some _ => txd i end.
Proof. exact ulp_next. Qed.
Print Assumptions C135_next.
(** It stays there until the PHY takes it, also over cycles in which the PHY has the bus. *)
Theorem C135_hold : forall is i j, phys_ok phy0 (trace ulp_step ulp_init is ++ [(i, snd (ulp_step (final ulp_step ulp_init is) i))]) ->
  snd (utx_of (trace ulp_step ulp_init is)) <> None -> owned (phy_of (trace ulp_step ulp_init is)) i && nxt i = false ->
  uo_d (snd (ulp_step (final ulp_step ulp_init (is ++ [i])) j)) = uo_d (snd (ulp_step (final ulp_step ulp_init is) i)).
Proof. exact ulp_hold. Qed.
Print Assumptions C135_hold.
Example C135_witness : let t := trace ulp_step ulp_init tx_run in phys_ok phy0 t /\
  utx_of t = ([[3; 17; 34]; [2]], None) /\ packets (p_done (phy_of t)) = [[3; 17; 34]; [2]].
Proof. split; [apply phys_okb_ok; vm_compute; reflexivity|]. vm_compute. repeat split. Qed.

(** function_control changed while its previous value is being written: the new value is never written, for any length of the run. *)
Theorem C136_lost_update_refuted : exists is q, Forall (fun i => fc_wf (fc i)) is /\ fc_wf (fc q) /\ phys_ok phy0 (trace ulp_step ulp_init is) /\
  forall n, let js := is ++ repeat q n in
  uo_rd (snd (ulp_step (final ulp_step ulp_init js) q)) = true /\ fst (fst (last_in js)) = 80 /\
  content (fst fc_default) (writes cmd_fc (p_done (phy_of (trace ulp_step ulp_init js)))) = 72.
Proof.
  exists stale_run, (ctl false 80 6). split; [repeat constructor; cbn; lia|]. split; [split; [cbn; lia|reflexivity]|].
  split; [apply phys_okb_ok; vm_compute; reflexivity|]. exact (ulp_stale stale_run (ctl false 80 6) 80 72 eq_refl eq_refl eq_refl (conj eq_refl eq_refl) eq_refl).
Qed.
Print Assumptions C136_lost_update_refuted.
(** If the control inputs change only in the first cycle or when the bridge is ready for a new packet, then whenever it is ready the registers of the PHY hold
    the values of the inputs; writes interrupted by the PHY are repeated. *)
Theorem C136_registers_partial : forall is i, Forall (fun i => fc_wf (fc i)) is -> phys_ok phy0 (trace ulp_step ulp_init (is ++ [i])) ->
  settled true fc_default otg_default (trace ulp_step ulp_init is) ->
  uo_rd (snd (ulp_step (final ulp_step ulp_init is) i)) = true -> nxt i = false ->
  let dn := p_done (phy_of (trace ulp_step ulp_init (is ++ [i]))) in
  no_reset (content (fst fc_default) (writes cmd_fc dn)) = fst (fst (last_in is)) /\ content otg_default (writes cmd_otg dn) = snd (last_in is).
Proof. exact ulp_regs. Qed.
Print Assumptions C136_registers_partial.
Example C136_witness : let t := trace ulp_step ulp_init (reg_run ++ [ctl false 72 0]) in phys_ok phy0 t /\
  settled true fc_default otg_default (trace ulp_step ulp_init reg_run) /\ p_done (phy_of t) = [Wr 132 72; Wr 138 0] /\
  uo_rd (snd (ulp_step (final ulp_step ulp_init reg_run) (ctl false 72 0))) = true.
Proof.
  split; [apply phys_okb_ok; vm_compute; reflexivity|]. split; [vm_compute; repeat split; auto|]. vm_compute. repeat split.
Qed.

(** data.t is low while the link has the bus and puts a command on it. *)
Theorem C137_not_driven_refuted : exists is i, phys_ok phy0 (trace ulp_step ulp_init (is ++ [i])) /\
  let o := snd (ulp_step (final ulp_step ulp_init is) i) in
  owned (phy_of (trace ulp_step ulp_init is)) i = true /\ uo_d o = 64 + 3 /\ ~ drive_rule (phy_of (trace ulp_step ulp_init is)) (i, o).
Proof.
  exists [lnk false false 0; lnk false true 195], (lnk false true 17). split; [apply phys_okb_ok; vm_compute; reflexivity|].
  vm_compute. repeat split. discriminate.
Qed.
Print Assumptions C137_not_driven_refuted.
(** data.t is never high while the PHY has the bus or in a turnaround. *)
Theorem C137_no_conflict_partial : forall is i, uo_t (snd (ulp_step (final ulp_step ulp_init is) i)) = true -> owned (phy_of (trace ulp_step ulp_init is)) i = true.
Proof. exact ulp_drive. Qed.
Print Assumptions C137_no_conflict_partial.
Example C137_witness : uo_t (snd (ulp_step (final ulp_step ulp_init [lnk false false 0]) (lnk false true 195))) = true.
Proof. reflexivity. Qed.

(** HostDisconnect is not cleared by an RX CMD without the event, nor by anything else. *)
Theorem C138_host_disconnect_refuted : exists is, forall js i,
  HostDisconnect (uo_int (snd (ulp_step (final ulp_step ulp_init (is ++ js)) i))) = true.
Proof. exists [ph false 32]. intros js i. exact (ulp_hd [ph false 32] js i eq_refl). Qed.
Print Assumptions C138_host_disconnect_refuted.
(** SessEnd stays set when an RX CMD says that Vbus is valid. *)
Theorem C138_sess_end_refuted : exists is i, let q := uo_int (snd (ulp_step (final ulp_step ulp_init is) i)) in VbusValid q = true /\ SessEnd q = true /\ SessValid q = false.
Proof. exists [ph false 0; ph false 12], (ph false 12). repeat split. Qed.
Print Assumptions C138_sess_end_refuted.
(** After an RX CMD: VbusValid says if its Vbus state is 3, IdGnd is its bit 6, the line state are its bits 0-1, and unless it is HostDisconnect,
    rx.active and rx.error are its RxActive and RxError events. *)
Theorem C138_rx_cmd_partial : forall is i j, p_dir (phy_of (trace ulp_step ulp_init is)) = true -> dir i = true -> nxt i = false ->
  let o := snd (ulp_step (final ulp_step ulp_init (is ++ [i])) j) in
  VbusValid (uo_int o) = ((di i / 4) mod 4 =? 3) /\ IdGnd (uo_int o) = ((di i / 64) mod 2 =? 1) /\ uo_ls o = di i mod 4 /\
  ((di i / 16) mod 4 <> 2 -> uo_rxa o = negb ((di i / 16) mod 4 =? 0) /\ uo_rxe o = ((di i / 16) mod 4 =? 3)).
Proof. exact ulp_rxcmd. Qed.
Print Assumptions C138_rx_cmd_partial.
Example C138_witness : let o := snd (ulp_step (final ulp_step ulp_init [ph false 125]) (ph false 0)) in
  uo_int o = mk_intr false true false false true /\ uo_ls o = 1 /\ uo_rxa o = true /\ uo_rxe o = true.
Proof. repeat split. Qed.
