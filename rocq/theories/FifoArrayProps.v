(** FifoArray: an array of linked lists in one memory *)
From Verif Require Import Base FifoArrayModel FifoArraySpec FifoArrayProofs.

(** C50, with append = 0 and the address of a node with a successor the law says nothing: see the refutation below *)
Theorem C50_fifo_array_partial : forall (A : Type) (k : nat) (v0 : nat -> A) (n0 : nat -> nat) (is : list (fa_in A)),
  array_law false (2 ^ k) [] (trace (fa_step k) (fa_init k v0 n0) is).
Proof. intros A k v0 n0 is. exact (fa_law k v0 n0 is). Qed.
Print Assumptions C50_fifo_array_partial.

(** The address of an insert with append = 0 is not ignored: the list which has a node on that address is cut. *)
Theorem C50_fifo_array_refuted : exists (k : nat) (v0 n0 : nat -> nat) (is : list (fa_in nat)),
  ~ array_law true (2 ^ k) [] (trace (fa_step k) (fa_init k v0 n0) is).
Proof. exists 2, (fun _ => 0), (fun _ => 3), fa_bad. exact fa_bad_law. Qed.
Print Assumptions C50_fifo_array_refuted.

(** a list of two nodes and a list of one, both popped; the freed node is used again *)
Example c50_run :
  map (fun o => (i_ret o, p_data o, p_last o, p_next o))
    (outs (fa_step 2) (fa_init 2 (fun _ => 0) (fun _ => 3))
       [mk_fai true 0 false 10 false 0; mk_fai true 0 true 11 false 0; mk_fai true 3 false 12 false 0;
        mk_fai false 0 false 0 true 0; mk_fai true 1 true 13 true 2; mk_fai false 0 false 0 true 1; mk_fai false 0 false 0 true 0])
  = [(0, 0, false, 3); (1, 10, true, 0); (2, 10, false, 1); (3, 10, false, 1); (0, 12, true, 3); (2, 11, false, 0); (1, 13, true, 1)].
Proof. vm_compute. reflexivity. Qed.
