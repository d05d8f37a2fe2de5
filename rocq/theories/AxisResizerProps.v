(** Axi4S_resizer changes the width of the words and keeps the frames *)
From Verif Require Import Base StreamSpec AxisResizerModel AxisResizerSpec AxisResizerProofs.

(** C51 upscale: the delivered words are the accepted words packed by [k] within frames *)
Theorem C51_upscale_words : forall (S A : Type) (z : A) (n k : nat), 1 <= k -> forall is : list (rz_in S A),
  let t := map rz_obs (trace (aup_step z n k) (aup_init z n) is) in
  delivered t = pack z n k [] (accepted t).
Proof. intros S A z n k Hk is. exact (aup_law z n k Hk is). Qed.
Print Assumptions C51_upscale_words.

(** the valid bytes and the ends of frames are the same, only bytes of an unfinished wide word of an unfinished frame wait *)
Theorem C51_upscale_bytes : forall (S A : Type) (z : A) (n k : nat), 1 <= k -> forall is : list (rz_in S A),
  let t := map rz_obs (trace (aup_step z n k) (aup_init z n) is) in
  exists rest, Forall (fun w => w_last w = false) rest /\ length rest < k /\
    flat_map events (accepted t) = flat_map events (delivered t) ++ flat_map events rest.
Proof. intros S A z n k Hk is. exact (aup_events z n k Hk is). Qed.
Print Assumptions C51_upscale_bytes.

(** C51 downscale: the delivered words are the parts of the accepted words, at most one accepted word is inside and
    its remaining parts are offered in each cycle *)
Theorem C51_downscale_words : forall (S A : Type) (x : list (A * bool)) (k m : nat), 1 <= k ->
  forall (w0 : axw S A) (is : list (rz_in S A)), Forall (fun i => length (w_cells (rz_word i)) = k * m) is ->
  let t := map rz_obs (trace (adn_step x k m) (adn_init w0) is) in
  exists inside, flat_map (unpack k m) (accepted t) = delivered t ++ inside /\ length inside <= k /\
    (forall i, rz_ovld (snd (adn_step x k m (final (adn_step x k m) (adn_init w0) is) i)) = true <-> inside <> []).
Proof. intros S A x k m Hk w0 is Hw. exact (adn_law x k m Hk w0 is Hw). Qed.
Print Assumptions C51_downscale_words.

Theorem C51_downscale_bytes : forall (S A : Type) (x : list (A * bool)) (k m : nat), 1 <= k ->
  forall (w0 : axw S A) (is : list (rz_in S A)), Forall (fun i => length (w_cells (rz_word i)) = k * m) is ->
  let t := map rz_obs (trace (adn_step x k m) (adn_init w0) is) in
  exists inside, flat_map events (accepted t) = flat_map events (delivered t) ++ flat_map events inside /\ length inside <= k.
Proof. intros S A x k m Hk w0 is Hw. exact (adn_events x k m Hk w0 is Hw). Qed.
Print Assumptions C51_downscale_bytes.

(** three narrow words of one frame to two wide ones with a stall in the middle *)
Example c51_up :
  delivered (map rz_obs (trace (aup_step 0 1 2) (aup_init 0 1)
    [mk_rzi true (mk_axw [(7, true)] 0 false) true; mk_rzi true (mk_axw [(8, true)] 0 false) false;
     mk_rzi true (mk_axw [(8, true)] 0 false) true; mk_rzi true (mk_axw [(9, true)] 5 true) true]))
  = [mk_axw [(7, true); (8, true)] 0 false; mk_axw [(9, true); (0, false)] 5 true].
Proof. vm_compute. reflexivity. Qed.

(** a wide word of three parts of which the last has no valid byte *)
Example c51_down :
  delivered (map rz_obs (trace (adn_step [] 3 1) (adn_init (mk_axw [(0, true); (0, true); (0, true)] 0 false))
    [mk_rzi true (mk_axw [(7, true); (8, true); (9, false)] 4 true) true; mk_rzi false (mk_axw [(1, true); (1, true); (1, true)] 0 false) true;
     mk_rzi true (mk_axw [(1, true); (2, true); (3, true)] 0 false) true; mk_rzi false (mk_axw [(1, true); (1, true); (1, true)] 0 false) true]))
  = [mk_axw [(7, true)] 4 false; mk_axw [(8, true)] 4 true; mk_axw [(1, true)] 0 false].
Proof. vm_compute. reflexivity. Qed.
