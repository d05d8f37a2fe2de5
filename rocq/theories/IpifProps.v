(** C120, C121: Axi4Lite_to_Ipif. *)
From Verif Require Import Base IpifModel IpifSpec IpifProofs IpifCases.

(** every history is one transaction after the other: the access on ipif has the address, data and strb of axi, and axi gets its data and error *)
Theorem C120_serial : forall (AD D M : Type) (a : AD) (d1 d2 : D) (m : M) r is, let t := trace ip_step (ip_init a d1 d2 m r) is in
  Forall polite t -> serial (events t).
Proof. exact @ip_serial. Qed.
Print Assumptions C120_serial.
Example C120_serial_witness : let t := trace ip_step (ip_init 0 0 0 0 0) run1 in
  Forall polite t /\ events t = [AW 8; W 77 3; IW 8 77 3 true; B 2; AR 4; IR 4 55 false; R (Some 55) 0].
Proof. split; [|reflexivity]. unfold run1. rewrite !BaseFacts.trace_cons. repeat constructor; cbn; intros; try discriminate; auto. Qed.

(** pins of two cycles after any history: responses and the selection stay until they are answered, then the selection ends *)
Theorem C121_hold : forall (AD D M : Type) (a : AD) (d1 d2 : D) (m : M) r is i j, let s0 := ip_init a d1 d2 m r in
  Forall polite (trace ip_step s0 (is ++ [i; j])) -> let s := final ip_step s0 is in
  let o := snd (ip_step s i) in let o' := snd (ip_step (fst (ip_step s i)) j) in
  (io_rv o = true -> ii_rrd i = false -> io_rv o' = true /\ io_rd o' = io_rd o /\ io_rresp o' = io_rresp o) /\
  (io_bv o = true -> ii_brd i = false -> io_bv o' = true /\ io_bresp o' = io_bresp o) /\
  (io_cs o = true -> ii_rdack i || ii_wrack i = false ->
     io_cs o' = true /\ io_rnw o' = io_rnw o /\ io_addr o' = io_addr o /\ io_data o' = io_data o /\ io_be o' = io_be o) /\
  (io_cs o = true -> ii_rdack i || ii_wrack i = true -> io_cs o' = false).
Proof. exact @ip_hold. Qed.
Print Assumptions C121_hold.
(** in three cycles in which nobody waits the bridge is ready for a new address, from any state *)
Theorem C121_progress : forall (AD D M : Type) (s : ipif AD D M) j1 j2 j3, Forall eager (trace ip_step s [j1; j2; j3]) ->
  existsb (fun c => io_arrd (snd c)) (trace ip_step s [j1; j2; j3]) = true.
Proof. exact @ip_progress. Qed.
Print Assumptions C121_progress.
Example C121_witness : let s0 := ip_init 0 0 0 0 0 in let o := outs ip_step s0 run1 in
  map io_cs o = [false; false; true; true; false; false; true] /\ map io_bv o = [false; false; false; true; true; false; false] /\
  Forall eager (trace ip_step (final ip_step s0 (firstn 1 run1)) [pi false false true true true false false false; pi false false true true true false true true; pi false false true true true false false false]).
Proof. repeat split; try reflexivity. rewrite !BaseFacts.trace_cons. repeat constructor. Qed.
