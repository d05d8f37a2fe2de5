From Verif Require Import Base StrictModel.

(** Which driver owns each word of a data stream, if the frames (ended by last) belong to the requests in the order given:
    [None] if there is a word without a request. *)
Fixpoint assigned {W} (owners : list nat) (ws : list (W * bool)) : option (list (nat * (W * bool))) :=
  match ws with
  | [] => Some []
  | w :: ws' =>
      match owners with
      | [] => None
      | k :: ks => match assigned (if snd w then ks else k :: ks) ws' with Some l => Some ((k, w) :: l) | None => None end
      end
  end.
(** the owners of the finished frames *)
Definition ends {W} (ws : list (W * bool)) : nat := length (filter snd ws).

Section R.
  Context {Q W : Type}.
  Variable n : nat.
  Notation rcyc := (rs_in Q W * rs_out Q)%type.
  (** requests taken from the drivers: driver and request *)
  Definition rq_from (c : rcyc) : list (nat * Q) :=
    flat_map (fun k => match nth_error (ri_req (fst c)) k with
                       | Some (true, q) => if nth k (ro_rds (snd c)) false then [(k, q)] else []
                       | _ => [] end) (seq 0 n).
  (** requests given to the datapump *)
  Definition rq_to (c : rcyc) : list Q := if ro_vld (snd c) && ri_dprd (fst c) then [ro_req (snd c)] else [].
  (** words taken from the datapump; words given to the drivers *)
  Definition rd_from (c : rcyc) : list (W * bool) := if ri_v (fst c) && ro_rdy (snd c) then [(ri_w (fst c), ri_last (fst c))] else [].
  Definition rd_to (c : rcyc) : list (nat * (W * bool)) :=
    flat_map (fun k => if ro_v (snd c) k && ri_rdy (fst c) k then [(k, (ri_w (fst c), ri_last (fst c)))] else []) (seq 0 n).
  Definition r_env (i : rs_in Q W) : Prop := length (ri_req i) = n.

  (** [t]: the requests reach the datapump in the order in which they were taken from the drivers, without delay; every read frame goes as
      a whole to the driver of its request; at most [cap] frames are open. *)
  Definition r_law (cap : nat) (t : list rcyc) : Prop :=
    map snd (flat_map rq_from t) = flat_map rq_to t /\
    assigned (map fst (flat_map rq_from t)) (flat_map rd_from t) = Some (flat_map rd_to t) /\
    length (flat_map rq_from t) <= ends (flat_map rd_from t) + cap.
  (** open requests *)
  Definition r_open (t : list rcyc) : nat := length (flat_map rq_from t) - ends (flat_map rd_from t).
End R.

Section Wr.
  Context {Q W : Type}.
  Variable n : nat.
  Notation wcyc := (ws_in Q W * ws_out Q W)%type.
  Definition wq_from (c : wcyc) : list (nat * Q) :=
    flat_map (fun k => match nth_error (wi_req (fst c)) k with
                       | Some (true, q) => if nth k (wo_rds (snd c)) false then [(k, q)] else []
                       | _ => [] end) (seq 0 n).
  Definition wq_to (c : wcyc) : list Q := if wo_vld (snd c) && wi_dprd (fst c) then [wo_req (snd c)] else [].
  (** words taken from the drivers; words given to the datapump *)
  Definition wd_from (c : wcyc) : list (nat * (W * bool)) :=
    flat_map (fun k => let '(v, w, l) := wi_w (fst c) k in if v && wo_rdy (snd c) k then [(k, (w, l))] else []) (seq 0 n).
  Definition wd_to (c : wcyc) : list (W * bool) :=
    let '(v, w, l) := wo_w (snd c) in if v && wi_rdy (fst c) then [(w, l)] else [].
  (** acknowledges taken from the datapump; given to the drivers *)
  Definition wa_from (c : wcyc) : list unit := if wi_ack (fst c) && wo_ackrd (snd c) then [tt] else [].
  Definition wa_to (c : wcyc) : list nat := flat_map (fun k => if wo_ack (snd c) k && wi_ackrd (fst c) k then [k] else []) (seq 0 n).
  Definition w_env (i : ws_in Q W) : Prop := length (wi_req i) = n.

  (** The data of the drivers reaches the datapump in the order of the requests, frame by frame; each acknowledge goes to the driver of its
      frame, and none before the end of the frame. *)
  Definition w_law (cap : nat) (t : list wcyc) : Prop :=
    map snd (flat_map wq_from t) = flat_map wq_to t /\
    map snd (flat_map wd_from t) = flat_map wd_to t /\
    assigned (map fst (flat_map wq_from t)) (flat_map wd_to t) = Some (flat_map wd_from t) /\
    length (flat_map wa_from t) = length (flat_map wa_to t) /\
    length (flat_map wa_to t) <= ends (flat_map wd_to t) <= length (flat_map wa_to t) + cap /\
    flat_map wa_to t = firstn (length (flat_map wa_to t)) (map fst (flat_map wq_from t)) /\
    length (flat_map wq_from t) <= ends (flat_map wd_to t) + cap.
End Wr.
