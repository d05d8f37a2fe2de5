(** What AxiWriteAggregatorWriteDispatcher has to do, seen from its ports. *)
From Verif Require Import Base WdModel.

Section Spec.
  Context {I K D B : Type}.
  Notation cyc := (wd_in I K D B * wd_out I K D B)%type.
  (** items consumed from read_execute *)
  Definition taken1 (c : cyc) : list (I * K) := let '(i, o) := c in if ex_vld i && ex_rd o then [(ex_idx i, ex_key i)] else [].
  Definition taken (t : list cyc) : list (I * K) := flat_map taken1 t.
  (** read_execute holds an item until it is consumed; [prev]: an item which was offered and not consumed *)
  Definition held (c : cyc) : option (I * K) := let '(i, o) := c in if ex_vld i && negb (ex_rd o) then Some (ex_idx i, ex_key i) else None.
  Fixpoint holds (prev : option (I * K)) (t : list cyc) : Prop :=
    match t with
    | [] => True
    | (i, o) :: t => match prev with None => True | Some x => ex_vld i = true /\ (ex_idx i, ex_key i) = x end /\ holds (held (i, o)) t
    end.
  (** words read from the data memory: item and index of the word *)
  Definition rd_word (c : cyc) : bool := let '(i, o) := c in en_vld o && en_rd i.
  Definition reads1 (c : cyc) : list (I * nat) := if rd_word c then [ra (snd c)] else [].
  Definition reads (t : list cyc) : list (I * nat) := flat_map reads1 t.
  Definition words (n : nat) (x : I * K) : list (I * nat) := map (fun k => (fst x, k)) (seq 0 n).
  (** words returned by the memory, one cycle after they were asked for, the word n - 1 is the last one of an item;
      first component: mark of the word asked for in the last cycle *)
  Definition answ_step (n : nat) (a : option bool * list (D * bool)) (c : cyc) : option bool * list (D * bool) :=
    (if rd_word c then Some (snd (ra (snd c)) =? n - 1) else None,
     snd a ++ match fst a with Some l => [(dout (fst c), l)] | None => [] end).
  Definition answers (n : nat) (t : list cyc) : list (D * bool) := snd (fold_left (answ_step n) t (None, [])).
  (** transactions on axi *)
  Definition aws1 (c : cyc) : list (I * K * nat) := let '(i, o) := c in if aw_vld o && aw_rdy i then [(aw_id o, aw_key o, aw_len o)] else [].
  Definition aws (t : list cyc) := flat_map aws1 t.
  Definition ws1 (c : cyc) : list (D * bool) := let '(i, o) := c in if w_vld o && w_rdy i then [(w_dat o, w_last o)] else [].
  Definition ws (t : list cyc) := flat_map ws1 t.
  Definition confirms1 (c : cyc) : list B := let '(i, o) := c in if rc_vld o && rc_rd i then [rc_dat o] else [].
  Definition bs1 (c : cyc) : list B := let '(i, o) := c in if b_vld i && b_rdy o then [b_id i] else [].
  (** an offered w or aw stays until it is taken *)
  Definition keeps (a b : cyc) : Prop :=
    (w_vld (snd a) = true -> w_rdy (fst a) = false -> w_vld (snd b) = true /\ w_dat (snd b) = w_dat (snd a) /\ w_last (snd b) = w_last (snd a)) /\
    (aw_vld (snd a) = true -> aw_rdy (fst a) = false -> aw_vld (snd b) = true /\ aw_id (snd b) = aw_id (snd a) /\ aw_key (snd b) = aw_key (snd a)).
End Spec.
