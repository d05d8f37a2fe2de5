(** C99: Axi4sFrameGen sends frames of len + 1 words which count down, an offered word stays. *)
From Verif Require Import Base FgModel FgSpec FgProofs.

(** the words sent after a write of a length which fits the register, in any state and until the next write of the length *)
Theorem C99_frames_partial : forall MAX_LEN DW s en rd L is, L < 2 ^ log2ceil MAX_LEN -> Forall no_len is ->
  frames_prefix (frame_of DW L) (sent (trace (g_step MAX_LEN DW) (fst (g_step MAX_LEN DW s (mk_gi en (Some L) rd))) is)).
Proof. exact gen_frames. Qed.
Print Assumptions C99_frames_partial.
Example C99_frames_witness : 2 < 2 ^ log2ceil 511 /\
  sent (trace (g_step 511 8) (fst (g_step 511 8 g_init (mk_gi (Some 1) (Some 2) false)))
    [mk_gi None None true; mk_gi None None false; mk_gi None None true; mk_gi None None true; mk_gi None None true]) =
  [(2, false); (1, false); (0, true); (2, false)].
Proof. split; [vm_compute; lia|reflexivity]. Qed.

(** a word is sent in exactly the cycles with ready of an enabled generator *)
Theorem C99_rate : forall MAX_LEN DW s en l rd is, Forall (fun i => gi_en i = None) is ->
  map moves (trace (g_step MAX_LEN DW) (fst (g_step MAX_LEN DW s (mk_gi (Some en) l rd))) is) =
  map (fun i => Nat.odd en && gi_rd i) is.
Proof. exact gen_rate_after. Qed.
Print Assumptions C99_rate.
Example C99_rate_witness : map moves (trace (g_step 511 8) (fst (g_step 511 8 g_init (mk_gi (Some 1) None false)))
    [mk_gi None None true; mk_gi None (Some 3) true; mk_gi None None false]) = [true; true; false].
Proof. reflexivity. Qed.

(** the length MAX_LEN, a power of two, gives frames of one word *)
Theorem C99_max_len_refuted : exists MAX_LEN is, Forall no_len is /\
  ~ frames_prefix (frame_of 8 MAX_LEN) (sent (trace (g_step MAX_LEN 8) (fst (g_step MAX_LEN 8 g_init (mk_gi (Some 1) (Some MAX_LEN) false))) is)).
Proof.
  exists 4, [mk_gi None None true]. split; [repeat constructor|].
  intros (n & rest & H). change (sent _) with [(0, true)] in H. destruct n; cbn in H; discriminate.
Qed.
Print Assumptions C99_max_len_refuted.

(** an offered word stays until it is taken, if no register is written *)
Theorem C99_held_partial : forall MAX_LEN DW is s, Forall quiet is -> held (trace (g_step MAX_LEN DW) s is).
Proof. intros. apply gen_held. assumption. Qed.
Print Assumptions C99_held_partial.
Example C99_held_witness : Forall quiet [mk_gi None None false; mk_gi None None true] /\
  map (fun c => go_v (snd c)) (trace (g_step 511 8) (mk_g 3 true 3) [mk_gi None None false; mk_gi None None true]) = [true; true].
Proof. split; [repeat constructor|reflexivity]. Qed.
(** a write withdraws the offered word *)
Theorem C99_held_refuted : exists MAX_LEN is, ~ held (trace (g_step MAX_LEN 8) g_init is).
Proof.
  exists 511, [mk_gi (Some 1) (Some 3) false; mk_gi (Some 0) None false; mk_gi None None false].
  intros (_ & H & _). cbn in H. destruct (H eq_refl eq_refl) as (E & _). discriminate.
Qed.
Print Assumptions C99_held_refuted.
