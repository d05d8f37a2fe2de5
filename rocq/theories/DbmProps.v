(** C162: the text dump of DebugBusMonitor shows the values of the monitored signals *)
From Coq Require Import NArith List.
From Verif Require Import Base DbmModel DbmSpec DbmProofs.
Import ListNotations.
Local Open Scope N_scope.

(** monitors without a hierarchy: any records, any values, anything on the bus behind the data *)
Theorem C162_flat : forall r junk, Forall rec_fits r -> covers r (flat (seq 0 (length r))) /\
  dump r (flat (seq 0 (length r))) (on_bus r junk) = Some (want_forest r (flat (seq 0 (length r))) 0).
Proof. intros r junk H. split; [exact (flat_covers r)|exact (dump_flat r junk H)]. Qed.
Print Assumptions C162_flat.

(** monitors with a hierarchy. Missing: hierarchies in a different order than [register], whose last root record has children or is only visual,
    or with children of a record which is a single signal; in these cases the statement is false, see below *)
Theorem C162_tree_partial : forall r f junk, Forall rec_fits r -> ids_f f = seq 0 (length r) -> nice_f r f -> ends_root r f ->
  dump r f (on_bus r junk) = Some (want_forest r f 0).
Proof. exact dump_tree. Qed.
Print Assumptions C162_tree_partial.

(** children which were registered after another root record are shown with the values of other signals *)
Theorem C162_order_refuted : exists r f junk, covers r f /\ Forall rec_fits r /\ nice_f r f /\ ends_root r f /\ dump r f (on_bus r junk) <> Some (want_forest r f 0).
Proof. exact order_refuted. Qed.
Print Assumptions C162_order_refuted.

(** a visual container as the last root record: its data are not read *)
Theorem C162_container_refuted : exists r f junk, covers r f /\ Forall rec_fits r /\ ids_f f = seq 0 (length r) /\ nice_f r f /\ dump r f (on_bus r junk) <> Some (want_forest r f 0).
Proof. exact container_refuted. Qed.
Print Assumptions C162_container_refuted.

(** a child of a record which is a single signal is not shown *)
Theorem C162_child_refuted : exists r f junk t, covers r f /\ Forall rec_fits r /\ ids_f f = seq 0 (length r) /\ ends_root r f /\ dump r f (on_bus r junk) = Some t /\
  (exists n v, In (n, Some (HLeaf 8 v)) r /\ forall ind x, ~ In (ind, n, x) t).
Proof. exact child_refuted. Qed.
Print Assumptions C162_child_refuted.

(** the hypotheses are met: a handshaked stream with a child, and a counter of 40 bits; junk behind the data *)
Example C162_case :
  let r := [(1%nat, Some (HNode (hcons 11 (HLeaf 8 200) (hcons 12 (HLeaf 1 1) (hcons 13 (HLeaf 1 0) hnil))))); (2%nat, Some (HLeaf 5 17)); (3%nat, None); (4%nat, Some (HLeaf 40 987654321987))] in
  let f := fcons (MT 0 (fcons (MT 1 fnil) fnil)) (fcons (MT 2 fnil) (fcons (MT 3 fnil) fnil)) in
  (Forall rec_fits r /\ ids_f f = seq 0 (length r) /\ nice_f r f /\ ends_root r f) /\
  dump r f (on_bus r 12345) = Some [((0, 1)%nat, None); ((1, 11)%nat, Some 200); ((1, 12)%nat, Some 1); ((1, 13)%nat, Some 0); ((1, 2)%nat, Some 17); ((0, 3)%nat, None); ((0, 4)%nat, Some 987654321987)].
Proof.
  cbv zeta. split; [|vm_compute; reflexivity]. split; [|split; [reflexivity|split; [cbn; repeat split; congruence|cbn; split; [reflexivity|]; eexists _, _; split; reflexivity]]].
  repeat (apply Forall_cons; [cbn; repeat split; try exact I; apply N.ltb_lt; vm_compute; reflexivity|]). apply Forall_nil.
Qed.
