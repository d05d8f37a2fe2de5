(** C164: strb and keep masks of words of Axi4S_frameDeparser *)
From Verif Require Import Base SksModel SksSpec SksProofs.
Local Open Scope nat_scope.

(** the mask of a word has the masks of all its parts, in order. Missing: padding directly before a signal, where it is false *)
Theorem C164_vec_partial : forall l, Forall item_ok l -> pads_after l -> vec_to_signal l = Some (flat_map mask_of l).
Proof. exact vec_ok. Qed.
Print Assumptions C164_vec_partial.

(** the mask of padding directly before a signal is lost *)
Theorem C164_vec_refuted : forall len v bits, item_ok (Pad len v) -> vec_to_signal [Pad len v; Sig bits] = Some bits /\ bits <> flat_map mask_of [Pad len v; Sig bits].
Proof. exact vec_lost. Qed.
Print Assumptions C164_vec_refuted.

(** the value for the selected choice of a union *)
Theorem C164_pop : forall l m, selects l m -> pop_mask_value (dict_of l) = Some m.
Proof. exact pop_sel. Qed.
Print Assumptions C164_pop.

(** strb of the selected choice, if choices have the same strb and keep *)
Theorem C164_strb_partial : forall l ms m, Forall2 has_mask l ms -> selects ms m -> exists keep, reduce_stashes l = Some (m, keep).
Proof. exact reduce_strb. Qed.
Print Assumptions C164_strb_partial.

(** keep is returned as strb *)
Theorem C164_strb_refuted : forall strb keep en, strb <> keep -> reduce_stashes [(en, mk_stash (whole strb) (whole keep))] = Some (keep, keep).
Proof. exact strb_lost. Qed.
Print Assumptions C164_strb_refuted.

(** keep is of the last choice, not of the selected one *)
Theorem C164_keep_refuted : forall a b, a <> b -> reduce_stashes [(true, mk_stash (whole a) (whole a)); (false, mk_stash (whole b) (whole b))] = Some (a, b).
Proof. exact keep_lost. Qed.
Print Assumptions C164_keep_refuted.

(** the hypotheses are met *)
Example C164_case :
  (let l := [Sig [true; false]; Pad 8 false; Pad 16 false; Pad 8 true] in
   Forall item_ok l /\ pads_after l /\ vec_to_signal l = Some [true; false; false; false; false; true]) /\
  item_ok (Pad 16 true) /\
  (let ms := [(false, [true; true]); (true, [true; false]); (false, [true; false])] in
   let st := fun m => mk_stash (whole m) (whole m) in
   selects ms [true; false] /\ Forall2 has_mask (map (fun x => (fst x, st (snd x))) ms) ms /\ pop_mask_value (dict_of ms) = Some [true; false]).
Proof.
  cbv zeta. split; [split; [|split; [cbn; auto|reflexivity]]|split; [cbn; split; [lia|reflexivity]|]].
  - apply Forall_cons; [exact I|]. repeat (apply Forall_cons; [cbn [item_ok]; split; [lia|reflexivity]|]). apply Forall_nil.
  - split; [|split; [|reflexivity]].
    + split; [right; left; reflexivity|]. intros m' H. cbn in H. intuition congruence.
    + repeat (apply Forall2_cons; [split; [reflexivity|split; reflexivity]|]). apply Forall2_nil.
Qed.
