From Verif Require Import Base TimeoutModel.

Section S.
  Context {P : Type}.
  (** requests accepted, responses given by the slave, responses taken by the master *)
  Definition n_req (t : list (to_in P * to_out P)) : nat := length (filter (fun c => ti_start (fst c)) t).
  Definition n_slave (t : list (to_in P * to_out P)) : nat :=
    length (filter (fun c => to_srd (snd c) && match ti_rsp (fst c) with Some _ => true | None => false end) t).
  Definition n_rsp (t : list (to_in P * to_out P)) : nat :=
    length (filter (fun c => ti_rd (fst c) && match to_rsp (snd c) with Some _ => true | None => false end) t).
  (** at any time the slave has not offered more responses than there were requests before *)
  Definition slave_obeys (t : list (to_in P * to_out P)) : Prop :=
    forall p c q, t = p ++ c :: q -> ti_rsp (fst c) <> None -> n_slave p < n_req p.
  (** a response which is offered and not taken is offered again *)
  Definition rsp_stable (t : list (to_in P * to_out P)) : Prop :=
    forall p c d q x, t = p ++ c :: d :: q -> to_rsp (snd c) = Some x -> ti_rd (fst c) = false -> to_rsp (snd d) = Some x.
  (** the response channel is connected to the slave *)
  Definition passes (c : to_in P * to_out P) : Prop :=
    to_srd (snd c) = ti_rd (fst c) /\
    to_rsp (snd c) = match ti_rsp (fst c) with Some (id, p) => Some (SlaveRsp id p) | None => None end.
End S.
