(** C163: the receiver of RmiiAdapter *)
From Verif Require Import Base RmrModel RmrSpec RmrProofs.
Local Open Scope N_scope.

(** any sequence of quiet clocks, frames and frames with a wrong preamble or SFD.
    Missing: frames which end in the preamble or inside of a byte; there it is false, see below *)
Theorem C163_receive_partial : forall d pc l z, Forall seg_ok l -> received d pc (flat_map line l ++ [z]) = flat_map want l.
Proof. exact receives. Qed.
Print Assumptions C163_receive_partial.

(** after a fragment of one byte of preamble and the standard gap of 96 bits a correct frame is not received *)
Theorem C163_fragment_refuted : exists bytes, Forall (fun b => b < 256) bytes /\ (64 <= length bytes)%nat /\
  forall d pc, let rx := received d pc (on (pairs 85) ++ quiet_n 48 ++ line (Good bytes 0 0 0 0) ++ quiet_n 48) in forall b e, ~ In (Some b, false, e) rx.
Proof. exact fragment_lost. Qed.
Print Assumptions C163_fragment_refuted.

(** a frame with an additional pair of bits at its end has no last *)
Theorem C163_dribble_refuted : exists bytes, Forall (fun b => b < 256) bytes /\ (64 <= length bytes)%nat /\
  forall d pc x, In x (received d pc (on (flat_map pairs (repeat 85 7 ++ [213] ++ bytes) ++ [1]) ++ quiet_n 48)) -> snd x = false.
Proof. exact dribble_no_last. Qed.
Print Assumptions C163_dribble_refuted.

(** the hypotheses are met: zeros before the preamble, a frame, a frame with a wrong SFD, a frame directly behind it *)
Example C163_case :
  let l := [Quiet 3 false; Quiet 0 true; Good [1; 254; 85] 1 2 3 0; Bad 7 85 [1; 1; 3] 0; Good [213] 0 0 0 0] in
  Forall seg_ok l /\
  received 2 5 (flat_map line l ++ [(0, false)]) =
    [(Some 1, false, false); (Some 254, false, false); (Some 85, false, true); (None, true, false); (None, true, false); (None, true, false); (None, true, true); (Some 213, false, true)].
Proof.
  cbv zeta. split; [|vm_compute; reflexivity].
  apply Forall_cons; [left; reflexivity|]. apply Forall_cons; [right; reflexivity|].
  apply Forall_cons; [repeat (apply Forall_cons; [reflexivity|]); apply Forall_nil|].
  apply Forall_cons; [cbn [seg_ok]; split; [apply le_n|split; [reflexivity|split; discriminate]]|].
  apply Forall_cons; [apply Forall_cons; [reflexivity|apply Forall_nil]|apply Forall_nil].
Qed.
