(** Models of the stream joins and splits of hwtLib/handshaked: joinPrioritized.py, joinFair.py,
    splitCopy.py, splitFair.py, splitPrioritized.py, splitSelect.py. *)
From Verif Require Import Base HsRegModel.

Definition any (l : list bool) : bool := existsb (fun b => b) l.
Definition every (l : list bool) : bool := forallb (fun b => b) l.

(** hwt.code.SwitchLogic used as a data mux: the first case whose condition holds, otherwise the
    default ([x] stands for the undefined value assigned by dataConnectionExpr(None, dout)). *)
Fixpoint switch {A} (cases : list (bool * A)) (x : A) : A :=
  match cases with
  | [] => x
  | (c, a) :: cs => if c then a else switch cs x
  end.

Section Joins.
  Context {A : Type}.
  (** vld and data of each input of the cycle, and dataOut.rd *)
  Record join_in := mk_jin { j_in : list (bool * A); j_rd : bool }.
  (** rd of each input, dataOut.vld, dataOut.data, selectedOneHot.data, selectedOneHot.vld *)
  Record join_out := mk_jout { j_rds : list bool; j_vld : bool; j_data : A; j_sel : list bool; j_sel_vld : bool }.

  Definition vlds (i : join_in) : list bool := map fst (j_in i).
  Definition nin (i : join_in) : nat := length (j_in i).

  (** HsJoinPrioritized.hwImpl, joinPrioritized.py:50-71; it has no selectedOneHot *)
  Definition join_prio (x : A) (i : join_in) : join_out :=
    mk_jout (map (fun k => j_rd i && every (map negb (firstn k (vlds i)))) (seq 0 (nin i)))
            (any (vlds i)) (switch (j_in i) x) [] false.

  (** HsJoinFairShare.priorityAck, joinFair.py:40-63; bit [k] of a vector is [nth k l false] *)
  Definition priority_ack (prio vs : list bool) (k : nat) : bool :=
    negb (any (map (fun pv => fst pv && snd pv) (skipn (S k) (combine prio vs)) ++ firstn k vs))
    || nth k prio false.

  (** hwt.code.rol by 1 on a vector stored LSB first *)
  Definition rol1 (l : list bool) : list bool :=
    match l with [] => [] | _ => last l false :: removelast l end.

  (** the reset value 1 of the priority register, joinFair.py:76, splitFair.py:57 *)
  Definition prio_init (n : nat) : list bool := map (fun k => k =? 0) (seq 0 n).

  (** isSelectedLogic, joinFair.py:65-92; with a single input there is no priority register *)
  Definition is_selected (prio : list bool) (vs : list bool) : list bool :=
    if length vs =? 1 then [true] else map (priority_ack prio vs) (seq 0 (length vs)).

  (** hwImpl, joinFair.py:108-126, inputMuxLogic, joinFair.py:94-106 *)
  Definition join_fair (x : A) (prio : list bool) (i : join_in) : list bool * join_out :=
    let sel := is_selected prio (vlds i) in
    (rol1 prio,
     mk_jout (map (fun s => s && j_rd i) sel)
             (any (vlds i))
             (switch (map (fun sd => (fst (snd sd) && fst sd, snd (snd sd))) (combine sel (j_in i))) x)
             (if nin i =? 1 then [true] else map (fun sv => fst sv && snd sv) (combine sel (vlds i)))
             (any (vlds i) && j_rd i)).
End Joins.
Arguments join_in : clear implicits.
Arguments join_out : clear implicits.

Section Splits.
  (** dataIn.vld, rd of each output, selectedOneHot.rd; the data is wired from dataIn to every
      output (splitCopy.py:43-45, splitFair.py:80-82, splitPrioritized.py:38-39), so only the
      control signals are modelled. *)
  Record split_in := mk_sin { s_vld : bool; s_rds : list bool; s_sel_rd : bool }.
  (** dataIn.rd, vld of each output, selectedOneHot.data, selectedOneHot.vld *)
  Record split_out := mk_sout { s_rd : bool; s_vlds : list bool; s_sel : list bool; s_sel_vld : bool }.

  Definition nout (i : split_in) : nat := length (s_rds i).

  (** HsSplitCopy.hwImpl, splitCopy.py:37-60 *)
  Definition split_copy (i : split_in) : split_out :=
    mk_sout (every (s_rds i))
            (map (fun k => every (s_vld i :: firstn k (s_rds i) ++ skipn (S k) (s_rds i))) (seq 0 (nout i)))
            [] false.

  (** HsSplitFair, splitFair.py:47-87; [exp] is EXPORT_SELECTED *)
  Definition split_fair (exp : bool) (prio : list bool) (i : split_in) : list bool * split_out :=
    let sel := map (priority_ack prio (s_rds i)) (seq 0 (nout i)) in
    (rol1 prio,
     mk_sout (any (s_rds i) && (if exp then s_sel_rd i else true))
             (map (fun s => s && s_vld i && (if exp then s_sel_rd i else true)) sel)
             (if exp then map (fun s => s && s_vld i) sel else [])
             (if exp then any (s_rds i) && s_vld i else false)).

  (** HsSplitPrioritized.hwImpl, splitPrioritized.py:26-42; the list of outputs is reversed, the
      outputs after position i of the reversed list are those with a lower index *)
  Definition split_prio (i : split_in) : split_out :=
    mk_sout (any (s_rds i))
            (map (fun k => s_vld i && every (map negb (firstn k (s_rds i)))) (seq 0 (nout i)))
            [] false.
End Splits.

Section SplitSelect.
  Context {A : Type}.
  (** HsSplitSelect, splitSelect.py:45-84.  Inputs: dataIn, selectOneHot, rd of the outputs. *)
  Record ssel_in := mk_ssin { ss_vld : bool; ss_data : A; ss_sel_vld : bool; ss_sel : list bool; ss_rds : list bool }.
  Record ssel_out := mk_ssout { ss_rd : bool; ss_sel_rd : bool; ss_vlds : list bool; ss_odata : A }.

  (** State: the HandshakedReg with LATENCY=1 of the select, splitSelect.py:50-55.  [x] is the
      undefined value of the default branch (select with no bit set), splitSelect.py:79-82.
      _select_consume_en is the constant 1 of the base class. *)
  Definition split_select (x : bool) (st : stage (list bool)) (i : ssel_in) : stage (list bool) * ssel_out :=
    let sv := occ st in
    let sd := sdat st in
    let '(sel_rd, in_rd) :=
      if negb sv then (false, false)
      else switch (map (fun br => (fst br, (snd br && ss_vld i && sv, snd br))) (combine sd (ss_rds i))) (x, x) in
    (stage_next st (ss_sel_vld i) (ss_sel i) sel_rd,
     mk_ssout in_rd (stage_rd st sel_rd)
              (map (fun b => sv && ss_vld i && b) sd) (ss_data i)).
End SplitSelect.
Arguments ssel_in : clear implicits.
Arguments ssel_out : clear implicits.
