(** Properties C17-C18. *)
From Verif Require Import Base BaseFacts StreamSpec StreamFacts HsRegModel ResizerModel ResizerSpec ResizerProofs ResizerPropsAux.

(** C17 (finding): dataIn.rd is constantly high, the last part of a word which arrives while
    dataOut.rd is low is accepted and lost. *)
Theorem C17_upscale_refuted :
  exists is, let t := map up_obs (trace (up_step 2) (up_init (fun _ => 0)) is) in
    accepted t = [1; 2; 3] /\ delivered t = [[1; 3]] /\ ~ packs 2 t.
Proof. exact c17_bad. Qed.
Print Assumptions C17_upscale_refuted.

(** C17 (part): if the consumer takes each word in the cycle in which it is offered, the parts are
    packed in order and nothing is lost. *)
Theorem C17_upscale_partial :
  forall (A : Type) (factor : nat), 2 <= factor -> forall (r0 : nat -> A) (is : list (up_in A)),
    let t := trace (up_step factor) (up_init r0) is in
    (forall c, In c t -> no_stall c) -> packs factor (map up_obs t).
Proof. exact @up_packs. Qed.
Print Assumptions C17_upscale_partial.

Example C17_case :
  let t := trace (up_step 2) (up_init (fun _ => 0)) up_hist in
  forallb (fun c => implb (uo_vld (snd c)) (ui_rd (fst c))) t = true /\
  accepted (map up_obs t) = [1; 2; 3; 4; 5] /\ delivered (map up_obs t) = [[1; 2]; [3; 4]].
Proof. vm_compute. repeat split. Qed.

(** C18 *)
Theorem C18_downscale :
  forall (A : Type) (factor : nat), 2 <= factor -> forall (x : A) (d0 : list A) (is : list (dn_in A)),
    (forall i, In i is -> length (di_data i) = factor) ->
    unpacks factor (map dn_obs (trace (dn_step x factor) (dn_init d0) is)).
Proof. exact @dn_unpacks. Qed.
Print Assumptions C18_downscale.

Theorem C18_downscale_stable :
  forall (A : Type) (factor : nat) (x : A) (d0 : list A) (is : list (dn_in A)),
    out_stable (map dn_obs (trace (dn_step x factor) (dn_init d0) is)).
Proof. exact @dn_stable. Qed.
Print Assumptions C18_downscale_stable.

Example C18_case :
  let t := map dn_obs (trace (dn_step 0 2) (dn_init []) dn_hist) in
  accepted t = [[1; 2]; [3; 4]] /\ delivered t = [1; 2; 3].
Proof. vm_compute. split; reflexivity. Qed.
