(** C63: FifoOutOfOrderRead. *)
From Verif Require Import Base FifoOooModel FifoOooSpec FifoOooProofs.

Theorem C63_fifo_oooread (n : nat) (is : list oo_in) : 0 < n -> ooo_law n 0 0 0 [] (trace (oo_step n) oo_init is).
Proof. exact (fun H => ooo_holds n H is). Qed.
Print Assumptions C63_fifo_oooread.
(** Two slots: both items are read, the second is confirmed first; the next write waits for the confirmation of the first. *)
Example C63_example :
  map (fun c => (ooo_wrd (snd c), ooo_rvld (snd c), ooo_idx (snd c), ooo_lock (snd c) 0))
    (trace (oo_step 2) oo_init [mk_ooi true false None; mk_ooi true true None; mk_ooi true true None; mk_ooi true true (Some 1);
                                mk_ooi true true (Some 0); mk_ooi true true None; mk_ooi false true None]) =
  [(true, false, 0, false); (true, true, 0, false); (false, true, 1, true); (false, false, 0, true);
   (false, false, 0, true); (true, false, 0, false); (true, true, 0, false)].
Proof. reflexivity. Qed.
