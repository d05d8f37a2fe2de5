From Verif Require Import Base ToLiteModel.

Section S.
  Context {P : Type}.
  Notation cyc := (tl_in P * tl_out P)%type.
  (** bursts accepted: id, address, len (number of beats - 1) *)
  Definition req1 (c : cyc) : list (nat * N * nat) :=
    if ai_vld (fst c) && ai_rd (snd c) then [(ai_id (fst c), ai_addr (fst c), ai_len (fst c))] else [].
  (** requests handed to the lite slave *)
  Definition addr1 (c : cyc) : list N := if ao_vld (snd c) && ao_rd (fst c) then [ao_addr (snd c)] else [].
  (** responses taken from the lite slave *)
  Definition beat1 (c : cyc) : list P := if ri_vld (fst c) && ri_rd (snd c) then [ri_data (fst c)] else [].
  (** responses taken by the master: id, last, fields *)
  Definition rsp1 (c : cyc) : list (nat * bool * P) :=
    if ro_vld (snd c) && ro_rd (fst c) then [(ro_id (snd c), ro_last (snd c), ro_data (snd c))] else [].

  (** the addresses of the beats of an incrementing burst *)
  Definition beats (AW : nat) (STEP : N) (r : nat * N * nat) : list N :=
    map (fun k => ((snd (fst r) + N.of_nat k * STEP) mod 2 ^ N.of_nat AW)%N) (seq 0 (snd r + 1)).
  (** id and last of the responses for the beats of a burst *)
  Definition tags (r : nat * N * nat) : list (nat * bool) :=
    repeat (fst (fst r), false) (snd r) ++ [(fst (fst r), true)].

  (** ports are vectors *)
  Definition tl_in_ok (AW LW : nat) (i : tl_in P) : Prop := (ai_addr i < 2 ^ N.of_nat AW)%N /\ ai_len i < 2 ^ LW.

  (** Each burst is split to its beats, in order; the responses of the lite slave are given back in order with the id of the burst
      they belong to and with last for the last one of the burst. For the write direction only the last one is given back. *)
  Definition bridge_law (AW : nat) (STEP : N) (lastonly : bool) (t : list cyc) : Prop :=
    let reqs := flat_map req1 t in
    (exists todo, flat_map (beats AW STEP) reqs = flat_map addr1 t ++ todo) /\
    length (flat_map beat1 t) <= length (flat_map tags reqs) /\
    flat_map rsp1 t = filter (fun x => if lastonly then snd (fst x) else true) (combine (flat_map tags reqs) (flat_map beat1 t)).
End S.
