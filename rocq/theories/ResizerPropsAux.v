From Verif Require Import Base BaseFacts StreamSpec StreamFacts HsRegModel ResizerModel ResizerSpec ResizerProofs.

Definition U (v : bool) (d : nat) (r : bool) := mk_uin v d r.
Definition up_bad_hist := [U true 1 true; U true 2 false; U true 3 true].
Definition up_hist := [U true 1 false; U false 9 true; U true 2 true; U true 3 false; U true 4 true; U true 5 false].
Definition D (v : bool) (d : list nat) (r : bool) := mk_din v d r.
Definition dn_hist := [D true [1; 2] true; D true [3; 4] false; D true [3; 4] true; D true [3; 4] true; D false [9; 9] true].

Lemma c17_bad :
  exists is, let t := map up_obs (trace (up_step 2) (up_init (fun _ => 0)) is) in
    accepted t = [1; 2; 3] /\ delivered t = [[1; 3]] /\ ~ packs 2 t.
Proof.
  exists up_bad_hist. cbv zeta. split; [reflexivity|]. split; [reflexivity|].
  intros [_ [l [E _]]]. vm_compute in E. discriminate.
Qed.
