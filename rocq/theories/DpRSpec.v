(** What the driver of Axi_rDatapump sees. *)
From Verif Require Import Base DpModel DpSpec DpRModel.

(** strobes of the last word of a request: the bytes below rem, 0 means all *)
Definition strb_of (wb rem : nat) : list bool := map (fun k => k <? (if rem =? 0 then wb else rem)) (seq 0 wb).
(** strb and last of the words of the frame which answers a request *)
Definition req_marks (wb : nat) (q : dreq) : list (list bool * bool) :=
  repeat (repeat true wb, false) (req_words wb q - 1) ++ [(strb_of wb (q_rem q), true)].
(** last of the beats of a burst *)
Definition burst_lasts (b : nat * nat) : list bool := repeat false (snd b) ++ [true].

Section R.
  Context {D : Type}.
  Variable c : dpcfg.
  Notation cyc := (rp_in D * rp_out D)%type.
  Definition rp_taken (x : cyc) : list dreq := if pi_vld (fst x) && po_rd (snd x) then [pi_req (fst x)] else [].
  Definition rp_burst (x : cyc) : list (nat * nat) := if po_arv (snd x) && pi_arrdy (fst x) then [(po_addr (snd x), po_len (snd x))] else [].
  (** beats taken from the bus, with last (AXI-Lite has none: every beat is the last one) *)
  Definition rp_beat (x : cyc) : list (D * bool) :=
    if pi_v (fst x) && po_rrdy (snd x) then [(pi_d (fst x), if LW c =? 0 then true else pi_last (fst x))] else [].
  (** words given to the driver: data, strb and last *)
  Definition rp_word (x : cyc) : list (D * (list bool * bool)) :=
    if po_v (snd x) && pi_rdy (fst x) then [(po_d (snd x), (po_strb (snd x), po_last (snd x)))] else [].
  (** requests of which a part may be answered: those taken and the one which is offered *)
  Definition rp_offered (x : cyc) : list dreq := if pi_vld (fst x) && negb (po_rd (snd x)) then [pi_req (fst x)] else [].
  Definition rp_started (t : list cyc) : list dreq := flat_map rp_taken t ++ match rev t with x :: _ => rp_offered x | [] => [] end.

  (** The driver keeps an offered request; the bus answers the bursts in order with the right number of beats, without errors; the requests
      are legal. *)
  Definition rp_kept (t : list cyc) : Prop :=
    forall t1 x y t2, t = t1 ++ x :: y :: t2 -> pi_vld (fst x) = true -> po_rd (snd x) = false ->
      pi_vld (fst y) = true /\ pi_req (fst y) = pi_req (fst x).
  Definition rp_answers (t : list cyc) : Prop :=
    forall t1 t2, t = t1 ++ t2 -> exists more, flat_map burst_lasts (flat_map rp_burst t1) = map snd (flat_map rp_beat t1) ++ more.
  Definition rp_env (i : rp_in D) : Prop :=
    (pi_v i = true -> pi_okay i = true) /\ (pi_vld i = true -> dreq_ok c (pi_req i) /\ chunk_aligned c (pi_req i) /\ fits c (pi_req i)).

  (** the bursts of each request cover exactly its words *)
  Definition covers (q : dreq) (bs : list (nat * nat)) : Prop :=
    flat_map (beats (WB c) (AW c)) bs = word_addrs (WB c) (AW c) q /\ Forall (fun b => snd b < 2 ^ LW c) bs.
  Definition covers_part (q : dreq) (bs : list (nat * nat)) : Prop :=
    Forall (fun b => snd b < 2 ^ LW c) bs /\
    exists m, flat_map (beats (WB c) (AW c)) bs = firstn m (word_addrs (WB c) (AW c) q) /\ m < req_words (WB c) q.
  Definition rp_law (t : list cyc) : Prop :=
    (exists gs rest, Forall2 covers (flat_map rp_taken t) gs /\ flat_map rp_burst t = flat_map (fun g => g) gs ++ rest /\
       (rest = [] \/ exists t1 x, t = t1 ++ [x] /\ rp_offered x <> [] /\ covers_part (pi_req (fst x)) rest)) /\
    map fst (flat_map rp_word t) = map fst (flat_map rp_beat t) /\
    map snd (flat_map rp_word t) = firstn (length (flat_map rp_beat t)) (flat_map (req_marks (WB c)) (rp_started t)).
End R.
