(** C131, C132, C133: buffers made by buff, AxiBuff, Mi32Buff. *)
From Verif Require Import Base StreamSpec HsRegModel HsRegSpec AmbSpec BufModel BufSpec BufProofs.

(** With latency = 1 the buffer is a register of one word, no matter how many items were asked for. *)
Theorem C131_capacity_refuted : exists b : hbuf nat, hb_init 4 (Some (LInt 1)) None (fun _ => 0) (fun _ => 0) 0 = Some b /\
  forall is, queue_law 1 [] (map hsr_obs (trace (hb_step 0) b is)).
Proof. eexists. split; [reflexivity|]. intros is. exact (proj1 (hb_queue 0 4 (Some (LInt 1)) None (fun _ => 0) (fun _ => 0) 0 _ is eq_refl)). Qed.
Print Assumptions C131_capacity_refuted.
(** For all parameters which elaborate the words leave in order, none lost or repeated, at most [holds] are inside, and a word which is offered stays until it is taken. *)
Theorem C131_queue_partial : forall (A : Type) (u : A) items lat delay d0 m x b (is : list (hsr_in A)),
  hb_init items lat delay d0 m x = Some b -> is_buffer (holds items lat) (map hsr_obs (trace (hb_step u) b is)).
Proof. exact @hb_queue. Qed.
Print Assumptions C131_queue_partial.
(** buff(items) always elaborates, takes a word within two cycles if fewer than [items] are inside, and offers a word within two cycles if any is inside. *)
Theorem C131_default_partial : forall (A : Type) (u : A) items d0 m x b is (i j : hsr_in A), hb_def items d0 m x = Some b ->
  let n := stored [] (map hsr_obs (trace (hb_step u) b is)) in let s := final (hb_step u) b is in let s' := fst (hb_step u s i) in
  (n < items -> ro_rd (snd (hb_step u s i)) = true \/ ro_rd (snd (hb_step u s' j)) = true) /\
  (0 < n -> ro_vld (snd (hb_step u s i)) = true \/ ro_vld (snd (hb_step u s' j)) = true).
Proof. exact @hb_live. Qed.
Print Assumptions C131_default_partial.
Theorem C131_builds_partial : forall (A : Type) items d0 m x, exists b : hbuf A, hb_def items d0 m x = Some b.
Proof. exact @hb_builds. Qed.
Print Assumptions C131_builds_partial.
(** five words to a stalled output, for 3 items (fifo) and 2 items (registers) *)
Example C131_witness : let is := map (fun k => mk_hri true k false) (seq 1 5) ++ repeat (mk_hri false 0 true) 5 in
  match hb_def 3 (fun _ => 0) (fun _ => 0) 0, hb_def 2 (fun _ => 0) (fun _ => 0) 0 with
  | Some b, Some c => accepted (map hsr_obs (trace (hb_step 0) b is)) = [1; 2; 3] /\ delivered (map hsr_obs (trace (hb_step 0) b is)) = [1; 2; 3] /\
      accepted (map hsr_obs (trace (hb_step 0) c is)) = [1; 2] /\ delivered (map hsr_obs (trace (hb_step 0) c is)) = [1; 2]
  | _, _ => False
  end.
Proof. vm_compute. auto. Qed.

(** Each channel of AxiBuff is a buffer of its depth (ADDR_BUFF_DEPTH for ar, aw and b, DATA_BUFF_DEPTH for w and r) which takes and offers words within two cycles,
    for every behavior of the other channels. *)
Theorem C132_axi_buff : forall (A : Type) (u : A) addr data d0 m x s is (i j : axb_in A) c, axb_init addr data d0 m x = Some s ->
  let t := map (chan_obs c) (trace (axb_step u) s is) in let d := depth addr data c in let s1 := final (axb_step u) s is in let s2 := fst (axb_step u s1 i) in
  let o1 := chan_out c (snd (axb_step u s1 i)) in let o2 := chan_out c (snd (axb_step u s2 j)) in
  is_buffer d t /\ (stored [] t < d -> ro_rd o1 = true \/ ro_rd o2 = true) /\ (0 < stored [] t -> ro_vld o1 = true \/ ro_vld o2 = true).
Proof. exact @axb_main. Qed.
Print Assumptions C132_axi_buff.
Theorem C132_builds : forall (A : Type) addr data d0 m x, 0 < addr \/ 0 < data -> exists s : axb_st A, axb_init addr data d0 m x = Some s.
Proof. exact @axb_builds. Qed.
Print Assumptions C132_builds.
(** depths 0 and 3: a read address passes at once while the data wait *)
Example C132_witness : let n := mk_hri false 0 false in let is := [mk_axi (mk_hri true 9 true) n (mk_hri true 1 false) n n; mk_axi n n (mk_hri true 2 false) n n; mk_axi n n (mk_hri false 0 true) n n] in
  match axb_init 0 3 (fun _ => 0) (fun _ => 0) 0 with
  | Some s => accepted (map (chan_obs CW) (trace (axb_step 0) s is)) = [1; 2] /\ delivered (map (chan_obs CW) (trace (axb_step 0) s is)) = [1] /\
      delivered (map (chan_obs CAr) (trace (axb_step 0) s is)) = [9]
  | None => False
  end.
Proof. vm_compute. auto. Qed.

(** The requests leave Mi32Buff unchanged and in order, at most ADDR_BUFF_DEPTH are inside, and it takes and offers them within two cycles. *)
Theorem C133_requests : forall (P D : Type) u addr data d0 m x dd s is (i j : mib_in P D), mib_init addr data d0 m x dd = Some s ->
  let t := map mrq_obs (trace (mib_step u) s is) in let s1 := final (mib_step u) s is in
  let o1 := snd (mib_step u s1 i) in let o2 := snd (mib_step u (fst (mib_step u s1 i)) j) in
  is_buffer addr t /\ (stored [] t < addr -> mo_ardy o1 = true \/ mo_ardy o2 = true) /\ (0 < stored [] t -> wants (mo_rq o1) = true \/ wants (mo_rq o2) = true).
Proof. exact @mib_requests. Qed.
Print Assumptions C133_requests.
(** The answers are delayed by exactly DATA_BUFF_DEPTH cycles. *)
Theorem C133_answers : forall (P D : Type) u addr data d0 m x dd s (is : list (mib_in P D)), mib_init addr data d0 m x dd = Some s ->
  let t := trace (mib_step u) s is in delayed data (map ans_m t) (map ans_s t).
Proof. exact @mib_answers. Qed.
Print Assumptions C133_answers.
Theorem C133_builds : forall (P D : Type) addr data d0 m x (dd : nat -> D), exists s : mib_st P D, mib_init addr data d0 m x dd = Some s.
Proof. exact @mib_builds. Qed.
Print Assumptions C133_builds.
Example C133_witness : let n := (false, false, 0) in
  let is := [mk_mbi (true, false, 5) false 0 false; mk_mbi (false, true, 6) true 7 true; mk_mbi n true 8 true; mk_mbi n true 0 false] in
  match mib_init 1 1 (fun _ => n) (fun _ => n) n (fun _ => 0) with
  | Some s => delivered (map mrq_obs (trace (mib_step n) s is)) = [(true, false, 5); (false, true, 6)] /\ map ans_s (trace (mib_step n) s is) = [None; None; Some 7; Some 8]
  | None => False
  end.
Proof. vm_compute. auto. Qed.
