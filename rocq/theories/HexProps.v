(** C153: exceptions raised in hardware. *)
From Verif Require Import Base HexModel HexSpec HexProofs.

(** In any history the pending flag says that an exception was raised before and the handler was not ready since then. *)
Theorem C153_pending : forall (h : list hx_in) (c : hx_in), xr_pending (snd (hx_step (final hx_step false h) c)) = true <-> waiting h.
Proof. exact pending_pin. Qed.
Print Assumptions C153_pending.
Example C153_pending_case : waiting [mk_hxi true true; mk_hxi true false; mk_hxi false false].
Proof. exists [mk_hxi true true], (mk_hxi true false), [mk_hxi false false]. repeat split. intros q [<-|[]]. reflexivity. Qed.

(** Missing: exceptions which are raised for a cycle in which the handler is not ready ([C153_delivered_refuted]). *)
Theorem C153_delivered_partial : forall is : list hx_in, kept is -> delivered (trace hx_step false is).
Proof. exact c153_kept. Qed.
Print Assumptions C153_delivered_partial.
Example C153_delivered_case : kept [mk_hxi true false; mk_hxi true false; mk_hxi true true; mk_hxi false true] /\
  map caught (trace hx_step false [mk_hxi true false; mk_hxi true false; mk_hxi true true; mk_hxi false true]) = [false; false; true; false].
Proof. cbn. repeat split; intros; congruence. Qed.

(** An exception which is pending is not offered to the handler: it is forgotten when the handler is ready. *)
Theorem C153_delivered_refuted : exists is : list hx_in, ~ delivered (trace hx_step false is) /\
  map (fun io => (xr_pending (snd io), caught io)) (trace hx_step false is) = [(false, false); (true, false); (true, false); (false, false)].
Proof.
  exists [mk_hxi true false; mk_hxi false false; mk_hxi false true; mk_hxi false false]. split; [|reflexivity].
  intros H. specialize (H [] _ _ eq_refl eq_refl).
  destruct H as (q & Hq & Hc); [eexists; split; [right; right; left; reflexivity|reflexivity]|].
  repeat (destruct Hq as [<-|Hq]; [discriminate|]). destruct Hq.
Qed.
Print Assumptions C153_delivered_refuted.
