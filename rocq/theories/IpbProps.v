(** C122: IpifBuff. *)
From Verif Require Import Base IpbModel IpbSpec IpbProofs.

(** every access of the master is exactly one access of the slave, with the same request and the same answer, in the same order *)
Theorem C122_transparent : forall (P U : Type) (p : P) (u : U) r w i is, let t := trace ipb_step (ipb_init p u r w) (i :: is) in
  bi_cs i = false -> Forall slave_ok t -> master_ok None t ->
  exists ins, length ins <= 1 /\ m_accs t = s_accs t ++ ins.
Proof. exact @ipb_transparent. Qed.
Print Assumptions C122_transparent.
Example C122_transparent_witness : let x b p rk := mk_bi b p 7 rk false in
  let t := trace ipb_step (ipb_init 0 0 true false) [x false 0 false; x true 1 false; x true 1 false; x true 1 true; x true 1 false; x true 2 false; x true 2 true; x true 2 false] in
  Forall slave_ok t /\ master_ok None t /\ m_accs t = [(1, 7, true, false); (2, 7, true, false)] /\ s_accs t = m_accs t.
Proof. cbv zeta. rewrite !BaseFacts.trace_cons. split; [repeat constructor; intros H; try discriminate H; reflexivity|]. repeat split; reflexivity. Qed.
(** one cycle in each direction *)
Theorem C122_latency : forall (P U : Type) (s : ipb P U) i j, bo_rdack (snd (ipb_step s i)) || bo_wrack (snd (ipb_step s i)) = false ->
  let o := snd (ipb_step (fst (ipb_step s i)) j) in
  bo_rdack o = bi_rdack i /\ bo_wrack o = bi_wrack i /\ bo_u o = bi_u i /\
  bo_p o = bi_p i /\ (bi_rdack i || bi_wrack i = false -> bo_cs o = bi_cs i).
Proof. exact @ipb_latency. Qed.
Print Assumptions C122_latency.
(** outside of the quantifier: a master which selects in the first cycle after reset can get an acknowledge from a register without reset *)
Theorem C122_first_cycle : exists r, let t := trace ipb_step (ipb_init 0 0 r false) [mk_bi true 1 0 false false] in
  Forall slave_ok t /\ master_ok None t /\ m_accs t = [] /\ s_accs t = [(1, 0, true, false)].
Proof. exists true. cbv zeta. split; [constructor; [intros H; discriminate H|constructor]|]. repeat split; reflexivity. Qed.
Print Assumptions C122_first_cycle.
