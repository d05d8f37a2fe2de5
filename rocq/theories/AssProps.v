(** C169: Axi4S split by select *)
From Verif Require Import Base AssModel AssSpec AssProofs.

(** every frame goes whole to the output of its select: the outputs have exactly the accepted words, routed by the accepted selects, in order *)
Theorem C169_frames : forall (A : Type) n (ins : list (asi A)), Forall (sel_ok n) ins -> let t := trace as_step None ins in
  exists ss, selects t = map (one_hot n) ss /\ length (route ss (taken t)) = length (taken t) /\ length (remain ss (taken t)) <= 1 /\
  forall k, given k t = routed_to k (route ss (taken t)).
Proof. exact @routes. Qed.
Print Assumptions C169_frames.

(** a word is accepted exactly when it is valid, there is a select and the selected output is ready;
    a select is accepted exactly when it is valid and there is no other one or the last word of its frame is accepted in this clock *)
Theorem C169_clocks : forall (A : Type) n (ins : list (asi A)) (i : asi A), Forall (sel_ok n) ins -> let t := trace as_step None ins in let o := snd (as_step (final as_step None ins) i) in
  exists ss, selects t = map (one_hot n) ss /\
  (o_in o = true <-> exists w j, s_in i = Some w /\ hd_error (remain ss (taken t)) = Some j /\ s_rd i j = true) /\
  (o_sel o = true <-> s_sel i <> None /\ (remain ss (taken t) = [] \/ exists w, s_in i = Some w /\ snd w = true /\ o_in o = true)).
Proof. exact @clocks. Qed.
Print Assumptions C169_clocks.

(** the hypotheses are met: a frame of two words to the output 2, the output waits, then a frame to the output 0 *)
Example C169_case :
  let all := fun _ : nat => true in
  let ins := [mk_asi (Some (7, false)) (Some (one_hot 3 2)) all; mk_asi (Some (7, false)) (Some (one_hot 3 0)) all; mk_asi (Some (8, true)) (Some (one_hot 3 0)) (fun k => k =? 0);
              mk_asi (Some (8, true)) (Some (one_hot 3 0)) all; mk_asi (Some (9, true)) None all] in
  let t := trace as_step None ins in
  Forall (sel_ok 3) ins /\ selects t = map (one_hot 3) [2; 0] /\ taken t = [(7, false); (8, true); (9, true)] /\ given 2 t = [(7, false); (8, true)] /\ given 0 t = [(9, true)] /\ given 1 t = [].
Proof.
  cbv zeta. split; [|vm_compute; auto 8].
  repeat (apply Forall_cons; [unfold sel_ok; cbn [s_sel]; first [exact I | eexists; split; [|reflexivity]; lia]|]). apply Forall_nil.
Qed.
