(** Laws of the frame aware switch, the prioritized join of frames and the stored bursts. *)
From Verif Require Import Base JoinSplitModel JoinSplitSpec AxisMiscModel.

(** Axi4S_en: [open] says whether a frame has started and its last word did not pass yet.  A word passes iff both sides are
    ready and the switch is on or a frame is open; it passes unchanged.
    With [strict] = false nothing is said about cycles in which en is low inside of a frame and about what follows. *)
Fixpoint switch_law {A} (strict open : bool) (t : list (en_in A * en_out A)) : Prop :=
  match t with
  | [] => True
  | (i, o) :: t' =>
      (strict = true \/ open = false \/ e_en i = true) ->
      let moves := e_vld i && e_ord i && (e_en i || open) in
      e_vld i && e_rd o = moves /\ e_ovld o && e_ord i = moves /\
      (moves = true -> e_odata o = e_data i /\ e_olast o = e_last i) /\
      switch_law strict (if moves then negb (e_last i) else open) t'
  end.

(** Axi4SJoinPrioritized: [cur] is the input whose frame is open.  While a frame is open only its input may pass words, otherwise
    the lowest input which has one; the word of that input is on the output. *)
Definition candidate (cur : option nat) (k : nat) : Prop := match cur with Some j => k = j | None => True end.
Fixpoint frames_law {D} (cur : option nat) (t : list (join_in (bool * D) * join_out (bool * D))) : Prop :=
  match t with
  | [] => True
  | (i, o) :: t' =>
      (j_vld o = true <-> exists k w, candidate cur k /\ in_word i k w) /\
      (forall k, in_moves i o k <->
         j_rd i = true /\ candidate cur k /\ (exists w, in_word i k w) /\ forall j w, j < k -> candidate cur j -> ~ in_word i j w) /\
      (forall k w, in_moves i o k -> in_word i k w ->
         out_moves i o /\ j_data o = w /\ frames_law (if fst w then None else Some k) t') /\
      ((forall k, ~ in_moves i o k) -> ~ out_moves i o /\ frames_law cur t')
  end.

(** words handed over by a stored burst *)
Definition burst_sent {A} (t : list (bool * burst_out A)) : list (A * bool) :=
  flat_map (fun c => if fst c && b_vld (snd c) then [(b_data (snd c), b_last (snd c))] else []) t.

(** bytes with strb set *)
Definition valid_bytes {A} (strb : list bool) (word : list A) : list A :=
  map fst (filter snd (combine word strb)).
