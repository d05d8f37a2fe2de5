(** C67 - C69: MI32 bridges, sliding window and buffer. *)
From Verif Require Import Base StreamSpec Mi32Model Mi32Spec Mi32Proofs.

(** C67, Mi32_to_Axi4Lite. Every accepted write is one request on aw and, in order, one word on w (at most one waits inside). *)
Theorem C67_mi32_to_axi_write (Ad W D : Type) (is : list (ma_in Ad W D)) :
  let t := trace ma_step ma_init is in
  flat_map aw1 t = map fst (flat_map mwr1 t) /\
  exists inside, map snd (flat_map mwr1 t) = flat_map w1 t ++ inside /\ length inside <= 1.
Proof. exact (conj (proj1 (ma_write is ma_init)) (ex_intro _ (wl (final ma_step ma_init is))
   (conj (proj2 (ma_write is ma_init)) (match m_w (final ma_step ma_init is) as o
     return length (match o with Some w => [w] | None => [] end) <= 1 with Some _ => le_n 1 | None => le_S _ _ (le_n 0) end)))). Qed.
Print Assumptions C67_mi32_to_axi_write.
(** Every accepted read is one request on ar if the w channel never stalls; read data is passed at once.
    Missing: a stalled w channel, see below. *)
Theorem C67_mi32_to_axi_read_partial (Ad W D : Type) (is : list (ma_in Ad W D)) :
  Forall (fun i => xi_w i = true) is ->
  let t := trace ma_step ma_init is in
  flat_map ar1 t = flat_map mrd1 t /\ forall s i, mo_d (snd (ma_step (Ad := Ad) (W := W) (D := D) s i)) = xi_r i.
Proof. exact (fun H => conj (ma_read is ma_init H) ma_data). Qed.
Print Assumptions C67_mi32_to_axi_read_partial.
(** A read which waits for the w channel is requested in each cycle. *)
Theorem C67_mi32_to_axi_read_refuted : exists is : list (ma_in nat nat nat),
  master_holds (trace ma_step ma_init is) /\ flat_map mrd1 (trace ma_step ma_init is) = [2] /\ flat_map ar1 (trace ma_step ma_init is) = [2; 2].
Proof. exact ma_refuted. Qed.
Print Assumptions C67_mi32_to_axi_read_refuted.
Example C67_example : let t := trace ma_step ma_init ex_ma in
  flat_map mwr1 t = [(1, 10)] /\ flat_map aw1 t = [1] /\ flat_map w1 t = [10].
Proof. repeat split. Qed.

(** C68, Axi4Lite_to_Mi32. For a master which makes one transaction at a time, gives write data with the address and takes write
    responses at once, and a slave which gives read data only after the request was taken, every transaction is passed.
    Missing: overlapping transactions, see below. *)
Theorem C68_axi_to_mi32_partial (Ad W D : Type) (rp : bool) (a : Ad) (d : D) (is : list (am_in Ad W D)) :
  seq_law Idle (trace (am_step rp) (am_init a d) is).
Proof. exact (am_seq0 rp a d is). Qed.
Print Assumptions C68_axi_to_mi32_partial.
Example C68_example : let t := trace (am_step true) (am_init 0 0)
   [mk_ami (Some 1) None (@None nat) true true true None; mk_ami None None None true true false None; mk_ami None None None true true true None;
    mk_ami None None None true true true (Some 7); mk_ami None None None true true true None; mk_ami None (Some 3) None true true true None;
    mk_ami None None (Some 5) true true true None] in
  seq_law Idle t /\ flat_map mir1 t = [1] /\ flat_map miw1 t = [3] /\ map (fun c => axo_r (snd c)) t = [None; None; None; None; Some 7; None; None].
Proof. exact (conj (am_seq0 true 0 0 _) (conj eq_refl (conj eq_refl eq_refl))). Qed.
(** A read accepted together with the data of the previous one is lost, even if the slave is always ready; after that the bridge
    accepts nothing any more, whatever the master does. *)
Theorem C68_axi_to_mi32_refuted (rp : bool) : exists is : list (am_in nat nat nat),
  flat_map axr1 (trace (am_step rp) (am_init 0 0) is) = [1; 2] /\
  forall js, Forall (fun i => mi_d i = None) js -> flat_map mir1 (trace (am_step rp) (am_init 0 0) (is ++ js)) = [1] /\
    forall c, In c (trace (am_step rp) (final (am_step rp) (am_init 0 0) is) js) -> axo_ar (snd c) = false /\ axo_aw (snd c) = false.
Proof. exact (am_dead rp). Qed.
Print Assumptions C68_axi_to_mi32_refuted.
(** The address of a read which waits for the slave is overwritten by the next one. *)
Theorem C68_axi_to_mi32_overwrite_refuted (rp : bool) : exists is : list (am_in nat nat nat),
  flat_map axr1 (trace (am_step rp) (am_init 0 0) is) = [1; 2] /\ flat_map mir1 (trace (am_step rp) (am_init 0 0) is) = [2; 2].
Proof. exact (ex_intro _ ex_am2 (am_overwrite rp)). Qed.
Print Assumptions C68_axi_to_mi32_overwrite_refuted.
(** A write whose data comes after the address is dropped and answered with OKAY. *)
Theorem C68_axi_to_mi32_write_refuted (rp : bool) : exists is : list (am_in nat nat nat),
  flat_map axw1 (trace (am_step rp) (am_init 0 0) is) = [1] /\ flat_map miw1 (trace (am_step rp) (am_init 0 0) is) = [] /\
  map (fun c => axo_b (snd c)) (trace (am_step rp) (am_init 0 0) is) = [false; true; false; false].
Proof. exact (ex_intro _ ex_am3 (am_wlost rp)). Qed.
Print Assumptions C68_axi_to_mi32_write_refuted.

(** C69, Mi32SlidingWindow and Mi32Buff. *)
Theorem C69_window (MAW : nat) (WINDOW : N) (is : list sw_in) : window_law MAW WINDOW 0 (trace (sw_step MAW WINDOW) 0%N is).
Proof. exact (sw_law MAW WINDOW is 0%N). Qed.
Print Assumptions C69_window.
Example C69_example_window : map (fun c => (so_ardy (snd c), so_wr (snd c), so_addr (snd c))) (trace (sw_step 32 16) 0%N ex_sw) =
  [(true, false, 16%N); (true, false, 261%N); (true, true, 259%N)].
Proof. reflexivity. Qed.
Theorem C69_buffer (R D : Type) (n : nat) r0 (is : list (bf_in R D)) :
  let t := trace bf_step (bf_init n r0) is in
  queue_law 1 [] (map bf_obs t) /\ out_stable (map bf_obs t) /\
  map (fun c => bo_d (snd c)) t = firstn (length is) (repeat None n ++ map bi_d is).
Proof. exact (conj (bf_law n r0 is) (conj (bf_stab n r0 is) (bf_data0 n r0 is))). Qed.
Print Assumptions C69_buffer.
Example C69_example_buffer : let t := trace bf_step (bf_init 2 (false, false, 0)) ex_bf in
  delivered (map bf_obs t) = [(true, false, 1); (false, true, 2)] /\ map (fun c => bo_d (snd c)) t = [None; None; None; None; Some 9].
Proof. split; reflexivity. Qed.
