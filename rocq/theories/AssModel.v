(** Model of hwtLib/amba/axis_comp/splitSelect.py [Axi4SSpliSelect]: hwtLib/handshaked/splitSelect.py [HsSplitSelect] which holds the select until last.
    Simplified: a word is its data (with strb, user and others) and last; the select has at least one bit set, otherwise ready is undefined, here false. *)
From Verif Require Import Base.

Section Ass.
  Context {A : Type}.
  Local Notation word := (A * bool)%type.
  (** dataIn when valid, selectOneHot when valid (bit 0 first), ready of outputs *)
  Record asi := mk_asi { s_in : option word; s_sel : option (list bool); s_rd : nat -> bool }.
  (** transfers in the clock: on each output, on dataIn, on selectOneHot *)
  Record aso := mk_aso { o_out : nat -> option word; o_in : bool; o_sel : bool }.
  (** the first case of SwitchLogic whose bit is set, handshaked/splitSelect.py:71-78 *)
  Fixpoint first_set (l : list bool) : option nat :=
    match l with [] => None | b :: l' => if b then Some 0 else match first_set l' with Some k => Some (S k) | None => None end end.
  (** the state is the HandshakedReg of the select (:50-55, LATENCY 1, see C06): accepts when empty or when it is consumed *)
  Definition as_step (s : option (list bool)) (i : asi) : option (list bool) * aso :=
    let sel_data := match s with Some l => l | None => [] end in
    let in_vld := match s_in i with Some _ => true | None => false end in
    let last := match s_in i with Some w => snd w | None => false end in
    (* valid of outputs, :61 *)
    let out_vld k := match s with Some _ => true | None => false end && in_vld && nth k sel_data false in
    (* ready of dataIn and of the select, :69-82; _select_consume_en of Axi4S is last *)
    let sel_out_rd := match s with None => false | Some l => match first_set l with Some j => s_rd i j | None => false end end in
    let consumed := sel_out_rd && in_vld && last in
    let reg_rd := match s with None => true | Some _ => consumed end in
    (match s_sel i with Some l => if reg_rd then Some l else s | None => if consumed then None else s end,
     mk_aso (fun k => if out_vld k && s_rd i k then s_in i else None) (in_vld && sel_out_rd) (match s_sel i with Some _ => reg_rd | None => false end)).
End Ass.
Arguments asi : clear implicits.
Arguments aso : clear implicits.
