(** An address space of 4B words: the field 0 has the word 0; the fields 1 and 2 (2 is a constant) have the word 1 with padding between them;
    a memory with 4 items is at the address 16, a memory with 3 items at the address 36. *)
From Verif Require Import Base BaseFacts EpModel EpSpec.

Definition ep_space : epcfg :=
  mk_ep 8 8 4 0 48 3 (fun f => nth f [0; 32; 56] 0) (fun f => nth f [32; 16; 8] 0) (fun f => nth f [true; true; false] false)
    [(0, [mk_part 0 32 (Some 0)]); (1, [mk_part 32 48 (Some 1); mk_part 48 56 None; mk_part 56 64 (Some 2)])] [(16, 4); (36, 3)].

Ltac fld f := destruct f as [|[|[|f]]]; [| | |cbn in *; lia].
Lemma fld3 f : f < e_nf ep_space -> f = 0 \/ f = 1 \/ f = 2.
Proof. cbn. lia. Qed.
Lemma ep_space_ok : cfg_ok ep_space.
Proof.
  constructor.
  - exists 3. reflexivity.
  - exists 2. reflexivity.
  - intros f g p Hf Hg. unfold in_field. apply fld3 in Hf, Hg. destruct Hf as [->|[->| ->]], Hg as [->|[->| ->]]; cbn; lia.
  - intros w l [H|[H|[]]]; injection H as <- <-; cbn [parts_ok pt_s pt_e pt_f].
    + cbn. repeat split; lia.
    + repeat split; try (cbn; lia). intros f q Hf Hq. unfold in_field. apply fld3 in Hf. destruct Hf as [->|[->| ->]]; cbn; lia.
  - repeat constructor; cbn; intuition congruence.
  - intros f p Hf. unfold in_field. change (e_wu ep_space * e_step ep_space) with 32. apply fld3 in Hf. destruct Hf as [->|[->| ->]]; cbn [nth e_base e_width ep_space]; intros Hp.
    + replace (p / 32) with 0 by (symmetry; apply Nat.div_small; lia). eexists. left. reflexivity.
    + replace (p / 32) with 1 by (apply Nat.div_unique with (p - 32); lia). eexists. right. left. reflexivity.
    + replace (p / 32) with 1 by (apply Nat.div_unique with (p - 32); lia). eexists. right. left. reflexivity.
  - intros w l [H|[H|[]]]; injection H as <- <-; [exists 0, 0|exists 1, 32]; unfold in_field; cbn; repeat split; lia.
  - intros f Hf Hw. apply fld3 in Hf. destruct Hf as [->|[->| ->]]; cbn in *; try lia.
  - intros f w l p Hw [H|[H|[]]]; injection H as <- <-; cbn [In].
    + intros [<-|[]]. cbn. intros Q. injection Q as <-. split; reflexivity.
    + intros [<-|[<-|[<-|[]]]]; cbn; intros Q; try discriminate Q; injection Q as <-; [split; reflexivity|discriminate Hw].
  - intros b n [H|[H|[]]]; injection H as <- <-; (split; [lia|]); (split; [reflexivity|]); (split; [cbn; lia|]); intros f p Hf; unfold in_field; apply fld3 in Hf; destruct Hf as [->|[->| ->]]; cbn; lia.
  - intros j k a Hj Hk. cbn in Hj, Hk. destruct j as [|[|j]]; [| |lia]; destruct k as [|[|k]]; try lia; cbn; lia.
Qed.

(** a word with the bits 0 and n *)
Definition ep_w (n : nat) : bits := map (fun k => (k =? 0) || (k =? n)) (seq 0 32).
(** values of the fields *)
Definition ep_din : nat -> bits := fun f => map (fun k => k =? f) (seq 0 (nth f [32; 16; 8] 0)).
Lemma ep_din_ok : din_ok ep_space ep_din.
Proof. intros f Hf. apply fld3 in Hf. destruct Hf as [->|[->| ->]]; reflexivity. Qed.
(** items of the memories *)
Definition ep_mem : nat -> nat -> bits := fun k x => ep_w (8 * k + x).
(** the word 1 as it is read, and an undefined word *)
Definition ep_word1 : xbits := map Some (ep_din 1) ++ repeat None 8 ++ map Some (ep_din 2).
Definition ep_undef : xbits := repeat None 32.

Definition ep_al (awv : bool) (aw : nat) (wv : bool) (w : nat) (arv : bool) (ar : nat) (r : bool) : al_in := mk_ali awv aw wv (ep_w w) true arv ar r ep_din.
Lemma ep_al_ok awv aw wv w arv ar r : aw < 256 -> ar < 256 -> (fun i => li_aw i < 2 ^ e_aw ep_space /\ li_ar i < 2 ^ e_aw ep_space /\ din_ok ep_space (li_din i)) (ep_al awv aw wv w arv ar r).
Proof. intros H1 H2. split; [exact H1|]. split; [exact H2|exact ep_din_ok]. Qed.
(** the read of the item 2 of the first memory; the answer is not taken in its first cycle *)
Definition ep_slow : list al_in := [ep_al false 0 false 0 true 24 true; ep_al false 0 false 0 false 0 false; ep_al false 0 false 0 false 0 false; ep_al false 0 false 0 false 0 true].
(** the read of the item 2 of the first memory and the write of its item 1 *)
Definition ep_mixed : list al_in := [ep_al true 20 false 0 true 24 true; ep_al false 0 true 9 false 0 true; ep_al false 0 false 0 false 0 true; ep_al false 0 false 0 false 0 true].
Lemma ep_inputs_ok : Forall (fun i => li_aw i < 2 ^ e_aw ep_space /\ li_ar i < 2 ^ e_aw ep_space /\ din_ok ep_space (li_din i)) ep_slow /\
  Forall (fun i => li_aw i < 2 ^ e_aw ep_space /\ li_ar i < 2 ^ e_aw ep_space /\ din_ok ep_space (li_din i)) ep_mixed.
Proof. split; repeat (constructor; [apply ep_al_ok; lia|]); constructor. Qed.
Notation ep_run is := (trace (al_step ep_space) (al_init 0 0 None 0 ep_mem) is).
Lemma cycle_data c p x : l_cycle c p x -> forall ok d a e, lo_r (snd x) = Some (ok, d) -> ls_r p = Some (a, Some e) ->
  (if reg_word c a then map (bit_at c (li_din (fst x))) (seq (a * e_step c) (e_wu c * e_step c)) else e) = d.
Proof.
  intros [_ [_ [_ [_ [H _]]]]] ok d a e E1 E2. rewrite E1 in H. destruct H as [a' [e' [H1 [_ H2]]]]. rewrite E2 in H1. injection H1 as <- <-.
  destruct (reg_word c a); symmetry; exact H2.
Qed.
Lemma law_last c mr is : forall p s i, l_law c mr p (trace (al_step c) s (is ++ [i])) ->
  l_cycle c (fold_left (l_next c mr) (trace (al_step c) s is) p) (i, snd (al_step c (final (al_step c) s is) i)).
Proof.
  induction is as [|j is IH]; intros p s i H; [rewrite app_nil_l, trace_cons in H; apply H|].
  rewrite <- app_comm_cons, trace_cons in H. destruct H as [_ [_ H]]. apply IH in H. rewrite trace_cons, final_cons. exact H.
Qed.
Lemma ep_slow_bad : ~ l_law ep_space true (l_start ep_mem) (ep_run ep_slow).
Proof.
  intros H. apply (law_last _ _ (removelast ep_slow) _ _ (last ep_slow (ep_al false 0 false 0 false 0 true))) in H.
  assert (map Some (ep_w 2) = ep_undef) as Q; [|discriminate Q].
  refine (cycle_data _ _ _ H true ep_undef 24 (map Some (ep_w 2)) _ _); vm_compute; reflexivity.
Qed.
Lemma ep_mixed_bad : ~ l_law ep_space true (l_start ep_mem) (ep_run ep_mixed).
Proof.
  intros H. apply (law_last _ _ (removelast ep_mixed) _ _ (last ep_mixed (ep_al false 0 false 0 false 0 true))) in H.
  assert (map Some (ep_w 2) = map Some (ep_w 1)) as Q; [|discriminate Q].
  refine (cycle_data _ _ _ H true (map Some (ep_w 1)) 24 (map Some (ep_w 2)) _ _); vm_compute; reflexivity.
Qed.
Lemma al_slow : exists c is m, cfg_ok c /\ Forall (fun i => li_aw i < 2 ^ e_aw c /\ li_ar i < 2 ^ e_aw c /\ din_ok c (li_din i)) is /\
  Forall (fun i => li_awv i = false /\ li_wv i = false) is /\ ~ l_law c true (l_start m) (trace (al_step c) (al_init 0 0 None 0 m) is).
Proof.
  exists ep_space, ep_slow, ep_mem. split; [exact ep_space_ok|]. split; [apply ep_inputs_ok|]. split; [|exact ep_slow_bad].
  repeat (constructor; [split; reflexivity|]). constructor.
Qed.
Lemma al_mixed : exists c is m, cfg_ok c /\ Forall (fun i => li_aw i < 2 ^ e_aw c /\ li_ar i < 2 ^ e_aw c /\ din_ok c (li_din i)) is /\
  Forall (fun i => li_r i = true /\ li_b i = true) is /\ ~ l_law c true (l_start m) (trace (al_step c) (al_init 0 0 None 0 m) is).
Proof.
  exists ep_space, ep_mixed, ep_mem. split; [exact ep_space_ok|]. split; [apply ep_inputs_ok|]. split; [|exact ep_mixed_bad].
  repeat (constructor; [split; reflexivity|]). constructor.
Qed.
