(** C155: routing of IpifInterconnectMatrix. *)
From Verif Require Import Base IpimModel IpimSpec IpimProofs.

Theorem C155_routed : forall (P D : Type) (SLAVES : list (nat * nat)) (AW : nat) (i : im_in P D), im_map_ok SLAVES AW -> im_routed SLAVES i (im_o SLAVES AW i).
Proof. intros P D SLAVES AW i H. exact (im_route SLAVES AW H i). Qed.
Print Assumptions C155_routed.

(** without the limit of the address space (the constructor accepts any): a slave behind it is selected instead of the right one *)
Theorem C155_address_space : exists (SLAVES : list (nat * nat)) (AW : nat) (i : im_in nat nat),
  (forall s, In s SLAVES -> (exists k, 1 <= k < AW /\ snd s = 2 ^ k) /\ fst s mod snd s = 0) /\
  (forall s q a, In s SLAVES -> In q SLAVES -> im_has s a -> im_has q a -> s = q) /\
  mi_addr i < 2 ^ AW /\ ~ im_routed SLAVES i (im_o SLAVES AW i).
Proof.
  exists [(256, 16); (0, 16)], 8, (mk_imi true 3 0 (fun j => mk_imr (j =? 0) (j =? 0) false j)).
  split; [intros s [<-|[<-|[]]]; (split; [exists 4; cbn; lia|reflexivity])|]. split.
  - intros s q a [<-|[<-|[]]] [<-|[<-|[]]] A B; unfold im_has in *; cbn [fst snd] in *; try reflexivity; lia.
  - split; [cbn; lia|]. intros (_ & H & _). specialize (H 1 (0, 16) eq_refl ltac:(unfold im_has; cbn; lia)).
    destruct H as (_ & _ & _ & _ & _ & H). vm_compute in H. discriminate.
Qed.
Print Assumptions C155_address_space.

Example C155_case : im_map_ok [(0, 256); (256, 256); (512, 16)] 10 /\
  let o := im_o [(0, 256); (256, 256); (512, 16)] 10 (mk_imi true 260 7 (fun j => mk_imr false (j =? 1) false (j + 40))) in
  map (mo_cs o) [0; 1; 2] = [false; true; false] /\ mo_addr o 1 = 4 /\ mo_rdack o = true /\ mo_data o = Some 41.
Proof.
  split; [|repeat split]. split.
  - intros s [<-|[<-|[<-|[]]]]; (split; [|split; [reflexivity|cbn [fst snd]; change (2 ^ 10) with (4 * 256); lia]]); [exists 8|exists 8|exists 4]; split; (lia || reflexivity).
  - intros [|[|[|i]]] [|[|[|j]]] s q a A B; try (destruct i; discriminate); try (destruct j; discriminate); cbn in A, B; try discriminate; injection A as <-; injection B as <-;
      unfold im_has; cbn [fst snd]; lia.
Qed.
