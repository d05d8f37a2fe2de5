From Verif Require Import Base BaseFacts RamXorModel RamXorSpec RamXorProofs.
Local Open Scope N_scope.

(** C34 for any numbers of ports.  Missing: (a) a write in the cycle just before the read is not seen ([C34_stale_refuted]),
    (b) two ports must not write an address in successive cycles ([C34_corrupt_refuted]), (c) the address pins have to be held
    for one more cycle or point to an address which is not being written ([C34_redirect_refuted]). *)
Theorem C34_ram_xor_partial : forall (W : nat) (wd rd : nat -> nat -> N) (ar : nat -> nat) (dr : nat -> N) (h : list x_in) (p c c2 : x_in) (r a : nat),
  disciplined W (h ++ [p; c]) -> xr_en (xi_r c r) = true -> xr_addr (xi_r c r) = a -> (forall k, ~ x_writes W p k a) ->
  let dout := snd (x_step W (final (x_step W) (x_init wd rd ar dr) (h ++ [p; c])) c2) r in
  (xr_addr (xi_r c2 r) = a -> dout = x_content W (h ++ [p; c]) a) /\
  ((forall k, ~ x_writes W c k (xr_addr (xi_r c2 r))) -> dout = x_content W (h ++ [p]) a).
Proof. exact c34. Qed.
Print Assumptions C34_ram_xor_partial.
Example C34_case : disciplined 2 (ex34_h ++ [ex34_p; ex34_c]) /\ (forall k, ~ x_writes 2 ex34_p k 3) /\
  snd (x_step 2 (final (x_step 2) x0 (ex34_h ++ [ex34_p; ex34_c])) ex34_c) 0%nat = 10 /\ x_content 2 (ex34_h ++ [ex34_p]) 3 = 10.
Proof. split; [exact ex34_disc|]. split; [exact ex34_now|]. vm_compute. split; reflexivity. Qed.

Theorem C34_stale_refuted : exists (h : list x_in) (c c2 : x_in),
  disciplined 2 (h ++ [c]) /\ xr_en (xi_r c 0) = true /\ xr_addr (xi_r c2 0) = xr_addr (xi_r c 0) /\
  snd (x_step 2 (final (x_step 2) x0 (h ++ [c])) c2) 0%nat <> x_content 2 h (xr_addr (xi_r c 0)).
Proof. exact c34_stale. Qed.
Print Assumptions C34_stale_refuted.

Theorem C34_corrupt_refuted : exists (h : list x_in) (c : x_in),
  (forall q, In q h -> no_clash 2 q) /\ xr_en (xi_r c 0) = true /\
  forall n, (0 < n)%nat -> snd (x_step 2 (final (x_step 2) x0 (h ++ repeat c (S n))) c) 0%nat = 15 /\ x_content 2 (h ++ repeat c (S n)) (xr_addr (xi_r c 0)) = 8.
Proof. exact c34_corrupt. Qed.
Print Assumptions C34_corrupt_refuted.

Theorem C34_redirect_refuted : exists (h : list x_in) (c c2 : x_in),
  disciplined 2 (h ++ [c; c2]) /\ (forall k, ~ x_writes 2 c k (xr_addr (xi_r c 0))) /\ xr_en (xi_r c 0) = true /\
  (length h = 4)%nat /\ (forall q k, In q (skipn 1 h) -> ~ x_writes 2 q k (xr_addr (xi_r c 0))) /\
  snd (x_step 2 (final (x_step 2) x0 (h ++ [c])) c2) 0%nat <> x_content 2 (h ++ [c]) (xr_addr (xi_r c 0)).
Proof. exact c34_misdirect. Qed.
Print Assumptions C34_redirect_refuted.
