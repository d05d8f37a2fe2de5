(** What a comparator of frames with a constant has to do. *)
From Verif Require Import Base AseqModel.

(** words accepted by the component, with their flag last *)
Definition taken (t : list (aq_in * aq_out)) : list (nat * bool) :=
  flat_map (fun io => if qi_valid (fst io) && qo_ready (snd io) then [(qi_data (fst io), qi_last (fst io))] else []) t.
(** results given to the consumer *)
Definition results (t : list (aq_in * aq_out)) : list bool :=
  flat_map (fun io => if qo_vld (snd io) && qi_rd (fst io) then [qo_data (snd io)] else []) t.
(** the complete frames in a sequence of words; [cur] are words of the frame which has begun before *)
Fixpoint frames (cur : list nat) (ws : list (nat * bool)) : list (list nat) :=
  match ws with
  | [] => []
  | (d, l) :: ws' => if l then (cur ++ [d]) :: frames [] ws' else frames (cur ++ [d]) ws'
  end.
(** the number carried by a frame, its first word is the lowest one *)
Fixpoint frame_num (DW : nat) (f : list nat) : nat :=
  match f with [] => 0 | d :: f' => d + 2 ^ DW * frame_num DW f' end.
(** the frame carries the value in its first VW bits *)
Definition carries (VW DW V : nat) (f : list nat) : bool := frame_num DW f mod 2 ^ VW =? V.
(** words on the bus have DW bits *)
Definition in_range (DW : nat) (is : list aq_in) : Prop := Forall (fun i => qi_data i < 2 ^ DW) is.
(** the consumer is ready in every cycle in which a word other than the last one is offered *)
Definition ready_inside (is : list aq_in) : Prop :=
  Forall (fun i => qi_valid i = true -> qi_last i = false -> qi_rd i = true) is.
