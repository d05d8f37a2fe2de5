(** What a request of the driver of a datapump means, in bytes and bus words. *)
From Verif Require Import Base DpModel.

(** bytes of the request and the number of bus words (of [wb] bytes) which contain them *)
Definition req_bytes (wb : nat) (q : dreq) : nat := q_len q * wb + (if q_rem q =? 0 then wb else q_rem q).
Definition req_words (wb : nat) (q : dreq) : nat := (q_addr q + req_bytes wb q - 1) / wb - q_addr q / wb + 1.
(** addresses of the bus words of the request; addresses are modulo 2^aw *)
Definition word_addrs (wb aw : nat) (q : dreq) : list nat :=
  map (fun k => ((q_addr q / wb + k) * wb) mod 2 ^ aw) (seq 0 (req_words wb q)).
(** addresses of the beats of an INCR burst *)
Definition beats (wb aw : nat) (b : nat * nat) : list nat := map (fun k => (fst b + k * wb) mod 2 ^ aw) (seq 0 (snd b + 1)).

Definition ah_cyc := (ah_in * ah_out)%type.
(** requests taken, bursts issued, notes for the data path: the request and whether the burst is its last one *)
Definition ah_taken (x : ah_cyc) : list dreq := if ai_vld (fst x) && ao_rd (snd x) then [ai_req (fst x)] else [].
Definition ah_burst (x : ah_cyc) : list (nat * nat) := if ao_vld (snd x) && ai_rdy (fst x) then [(ao_addr (snd x), ao_len (snd x))] else [].
Definition ah_info (x : ah_cyc) : list (dreq * bool) := if ao_ivld (snd x) && ai_irdy (fst x) then [(ai_req (fst x), ao_last (snd x))] else [].

(** The driver keeps an offered request until it is taken. *)
Definition req_kept (t : list ah_cyc) : Prop :=
  forall t1 x y t2, t = t1 ++ x :: y :: t2 -> ai_vld (fst x) = true -> ao_rd (snd x) = false ->
    ai_vld (fst y) = true /\ ai_req (fst y) = ai_req (fst x).

(** The bursts [bs] with the end marks [ms] which serve the request [q]: beats cover exactly the words of the request, in order; no burst is
    longer than the bus allows and all but the last one are of this length; only the last one is marked. *)
Record served (c : dpcfg) (q : dreq) (bs : list (nat * nat)) (ms : list (dreq * bool)) : Prop := {
  sv_words : flat_map (beats (WB c) (AW c)) bs = word_addrs (WB c) (AW c) q;
  sv_len : Forall (fun b => snd b < 2 ^ LW c) bs;
  sv_full : Forall (fun b => snd b + 1 = 2 ^ LW c) (removelast bs);
  sv_marks : ms = repeat (q, false) (length bs - 1) ++ [(q, true)] /\ bs <> [] }.
(** a part of the request is served: the bursts cover the first words, no end mark yet *)
Record begun (c : dpcfg) (q : dreq) (bs : list (nat * nat)) (ms : list (dreq * bool)) : Prop := {
  bg_words : exists m, flat_map (beats (WB c) (AW c)) bs = firstn m (word_addrs (WB c) (AW c) q) /\ 0 < m < req_words (WB c) q;
  bg_full : Forall (fun b => snd b + 1 = 2 ^ LW c) bs;
  bg_marks : ms = repeat (q, false) (length bs) }.

(** History of the address handler: each request taken is served by consecutive bursts before it is taken; at most the request offered in
    the last cycle is served in part. *)
Definition ah_law (c : dpcfg) (t : list ah_cyc) : Prop :=
  exists (gs : list (list (nat * nat) * list (dreq * bool))) (rest : list (nat * nat) * list (dreq * bool)),
    Forall2 (fun q g => served c q (fst g) (snd g)) (flat_map ah_taken t) gs /\
    flat_map ah_burst t = flat_map fst gs ++ fst rest /\
    flat_map ah_info t = flat_map snd gs ++ snd rest /\
    (rest = ([], []) \/
     exists t1 x, t = t1 ++ [x] /\ ai_vld (fst x) = true /\ ao_rd (snd x) = false /\ begun c (ai_req (fst x)) (fst rest) (snd rest)).

(** sane configuration: powers of two, alignment not over the word *)
Definition dp_cfg_ok (c : dpcfg) : Prop :=
  (exists k, WB c = 2 ^ k /\ k <= AW c) /\ (exists k, AL c = 2 ^ k) /\ AL c <= WB c /\ (exists k, CB c = 2 ^ k).
(** a request the interface can carry, aligned as ALIGNAS says *)
Definition dreq_ok (c : dpcfg) (q : dreq) : Prop :=
  q_addr q < 2 ^ AW c /\ q_len q <= MAXLEN c /\ q_rem q < WB c /\ q_addr q mod AL c = 0.
(** a request of the driver can have more words than the longest burst, so requests are split *)
Definition long_requests (c : dpcfg) : Prop :=
  2 ^ LW c < MAXLEN c + 1 \/
  MAXLEN c + 1 = 2 ^ LW c /\ (AL c <> WB c /\ WB c <= CB c \/ exists k, k * AL c < WB c /\ WB c < k * AL c + CB c).
(** guards of the proved part: the address is aligned to the chunk if there is an alignment check at all, and without splitting the
    request fits in one burst *)
Definition chunk_aligned (c : dpcfg) (q : dreq) : Prop := AL c = 1 \/ q_addr q mod CB c = 0.
Definition fits (c : dpcfg) (q : dreq) : Prop :=
  long_requests c \/ (req_words (WB c) q <= 2 ^ LW c /\ (0 < MAXLEN c \/ req_words (WB c) q = 1)).
