(** C104, C105: AxiCacheTagArray *)
From Verif Require Import Base RamModel TagModel TagSpec TagProofs TagCases.

(** the answer offered in a cycle is right for the directory after all updates of the previous cycles *)
Theorem C104_lookup : forall (I : Type) c, cfg_ok c = true -> forall pad und m u (rs : list (lk_reg I)) is i k o,
  Forall (fun x => length (snd x) = length rs /\ u_addr (fst x) < 2 ^ ADDR_WIDTH c /\ Forall (fun l => l_addr l < 2 ^ ADDR_WIDTH c) (snd x)) is ->
  nth_error (snd (tag_step c pad und (final (tag_step c pad und) (tag_init m u rs) is) i)) k = Some o -> o_vld o = true ->
  (o_found o = true <-> exists w, present c m (map fst is) (o_addr o) w) /\
  (o_found o = true -> exists w, o_way o = Some w /\ present c m (map fst is) (o_addr o) w /\
     forall w', w' < w -> ~ present c m (map fst is) (o_addr o) w').
Proof. exact tag_lookup. Qed.
Print Assumptions C104_lookup.
(** each accepted request is answered once, in order, from the next cycle on; a port waits only for its own sink *)
Theorem C104_order : forall (I : Type) c, cfg_ok c = true -> forall pad und m u (rs : list (lk_reg I)) is i k o l,
  Forall (fun x => length (snd x) = length rs /\ u_addr (fst x) < 2 ^ ADDR_WIDTH c /\ Forall (fun l => l_addr l < 2 ^ ADDR_WIDTH c) (snd x)) is ->
  nth_error (snd i) k = Some l ->
  nth_error (snd (tag_step c pad und (final (tag_step c pad und) (tag_init m u rs) is) i)) k = Some o ->
  let t := port_trace k (trace (tag_step c pad und) (tag_init m u rs) is) in
  asked t = answered t ++ (if o_vld o then [(o_id o, o_addr o)] else []) /\
  (o_rd o = true <-> o_vld o = false \/ l_rrd l = true).
Proof. exact tag_order. Qed.
Print Assumptions C104_order.
(** two addresses have the same place in the directory exactly if they are of the same line *)
Theorem C104_line : forall c a b, (tag_of c a = tag_of c b /\ index_of c a = index_of c b) <-> a / 2 ^ OFFSET_W c = b / 2 ^ OFFSET_W c.
Proof. exact tag_line. Qed.
Print Assumptions C104_line.
Example C104_witness : cfg_ok tc = true /\ (TAG_W tc, INDEX_W tc, OFFSET_W tc) = (4, 1, 1) /\
  Forall (fun x => length (snd x) = length regs2 /\ u_addr (fst x) < 2 ^ ADDR_WIDTH tc /\ Forall (fun l => l_addr l < 2 ^ ADDR_WIDTH tc) (snd x)) ins2 /\
  map (fun o => (o_vld o, o_id o, o_addr o, o_found o, o_way o)) out1 = [(true, 7, 45, true, Some 1); (false, 0, 0, false, Some 1)] /\
  map (fun o => (o_vld o, o_id o, o_addr o, o_found o, o_way o)) out15 = [(false, 0, 0, false, Some 1); (true, 8, 44, true, Some 1)] /\
  map (fun o => (o_vld o, o_id o, o_addr o, o_found o, o_way o)) out2 = [(true, 9, 12, false, Some 1); (true, 8, 44, false, Some 1)] /\
  asked (port_trace 1 (trace (tag_step tc (fun _ => false) (fun _ _ => true)) (tag_init mem0 idle regs2) ins2)) = [(8, 44)].
Proof.
  split; [reflexivity|]. split; [reflexivity|]. split; [|vm_compute; repeat split].
  unfold ins2. repeat (constructor; [cbn [snd fst u_addr length regs2]; split; [reflexivity|]; split; [apply Nat.ltb_lt; reflexivity|
    repeat (constructor; [apply Nat.ltb_lt; reflexivity|]); constructor]|]). constructor.
Qed.

(** lookupRes.tags is the directory if the line was not updated in the previous cycle *)
Theorem C105_tags_partial : forall (I : Type) c, cfg_ok c = true -> forall pad und m u (rs : list (lk_reg I)) is i k o,
  Forall (fun x => length (snd x) = length rs /\ u_addr (fst x) < 2 ^ ADDR_WIDTH c /\ Forall (fun l => l_addr l < 2 ^ ADDR_WIDTH c) (snd x)) is ->
  nth_error (snd (tag_step c pad und (final (tag_step c pad und) (tag_init m u rs) is) i)) k = Some o -> o_vld o = true ->
  (forall is' x, is = is' ++ [x] -> u_vld (fst x) = true -> index_of c (u_addr (fst x)) <> index_of c (o_addr o)) ->
  forall w t, w < WAY_CNT c -> t < 2 ^ TAG_W c ->
  (nth_error (o_tags o) w = Some (true, map (Nat.testbit t) (seq 0 (TAG_W c))) <-> holds c m (map fst is) (index_of c (o_addr o)) w t).
Proof. exact tag_tags. Qed.
Print Assumptions C105_tags_partial.
Example C105_witness : exists o, nth_error out15 1 = Some o /\ o_vld o = true /\
  (forall is' x, firstn 2 ins2 = is' ++ [x] -> u_vld (fst x) = true -> index_of tc (u_addr (fst x)) <> index_of tc (o_addr o)) /\
  nth_error (o_tags o) 1 = Some (true, map (Nat.testbit 11) (seq 0 (TAG_W tc))).
Proof.
  eexists. split; [reflexivity|]. split; [reflexivity|]. split; [|reflexivity]. intros is' x H. change (firstn 2 ins2) with (firstn 1 ins2 ++ [nth 1 ins2 (idle, [])]) in H.
  apply app_inj_tail in H. destruct H as [_ <-]. discriminate.
Qed.
(** in the cycle after an update found and way are right but tags are the old ones: the found way is shown as invalid *)
Theorem C105_tags_refuted : exists o, nth_error out1 0 = Some o /\ o_vld o = true /\ o_addr o = 45 /\ tag_of tc 45 = 11 /\
  o_found o = true /\ o_way o = Some 1 /\ nth_error (o_tags o) 1 = Some (false, [false; false; false; false]).
Proof. eexists. vm_compute. repeat split. Qed.
Print Assumptions C105_tags_refuted.
