From Verif Require Import Base FlipModel FlipSpec FlipProofs.

(** C76: FlipRegister connects each port to one of the registers *)
Theorem C76_flip_register : forall (V : Type) (v0 : V) (is : list (fr_in V)), fr_law v0 (trace fr_step (fr_init v0) is).
Proof. exact @fr_run. Qed.
Print Assumptions C76_flip_register.

(** no increment of FlipCntr is lost or counted twice *)
Theorem C76_flip_cntr : forall W (is : list fc_in), Forall (fun i => forall v, fc_w i = Some v -> v < 2 ^ W) is -> fc_law W (trace (fc_step W) fc_init is).
Proof. exact fc_run. Qed.
Print Assumptions C76_flip_cntr.

Example C76_cntr_run :
  trace (fc_step 4) fc_init [mk_fci true true (Some 7); mk_fci true false None; mk_fci true true None; mk_fci false false None; mk_fci true true (Some 3); mk_fci false false None] =
  [(mk_fci true true (Some 7), 0); (mk_fci true false None, 1); (mk_fci true true None, 1); (mk_fci false false None, 9); (mk_fci true true (Some 3), 9); (mk_fci false false None, 2)].
Proof. vm_compute. reflexivity. Qed.

(** FlipRam: reads return the content of the RAM to which the port is connected, if the RAMs are not flipped in the next cycle *)
Theorem C76_flip_ram_partial : forall (A : Type) (m0 m1 : nat -> A) (is : list (fm_in A)) t1 x y t2,
  trace fm_step (fm_init m0 m1) is = t1 ++ x :: y :: t2 -> fm_sel (fst y) = fm_sel (fst x) -> fm_read_ok m0 m1 t1 x y.
Proof. exact @fm_run. Qed.
Print Assumptions C76_flip_ram_partial.
Theorem C76_flip_ram_refuted : exists (m0 m1 : nat -> nat) (is : list (fm_in nat)) t1 x y t2,
  trace fm_step (fm_init m0 m1) is = t1 ++ x :: y :: t2 /\ ~ fm_read_ok m0 m1 t1 x y.
Proof. exact fm_flip_bad. Qed.
Print Assumptions C76_flip_ram_refuted.

Example C76_ram_run : map snd (trace fm_step (fm_init (fun _ => 1) (fun _ => 2))
    [mk_fmi true (mk_fmp true true 3 8) (mk_fmp true false 3 0); mk_fmi true (mk_fmp true false 3 0) (mk_fmp true false 3 0); mk_fmi true (mk_fmp false false 0 0) (mk_fmp false false 0 0)]) =
  [(None, None); (Some 1, Some 2); (Some 8, Some 2)].
Proof. vm_compute. reflexivity. Qed.
