(** Vocabulary of the properties of Axi4S_frameDeparser. *)
From Verif Require Import Base FpModel FpSpec FdModel.

Section Spec.
  Notation cycle := (d_in * d_out)%type.
  (** words accepted by the receiver and their marks; number of values taken from the input of field [j] *)
  Definition sent (t : list cycle) : list (list bool) := flat_map (fun c => if q_v (snd c) && d_r (fst c) then [q_d (snd c)] else []) t.
  Definition sent_last (t : list cycle) : list bool := flat_map (fun c => if q_v (snd c) && d_r (fst c) then [q_l (snd c)] else []) t.
  Definition sent_strb (t : list cycle) : list (list bool) := flat_map (fun c => if q_v (snd c) && d_r (fst c) then [q_s (snd c)] else []) t.
  Definition given (j : nat) (t : list cycle) : nat := length (filter (fun c => d_v (fst c) j && q_rd (snd c) j) t).
  (** The values of field [j] are [vals j 0], [vals j 1]...: whenever a value is offered it is the one after those taken ([n j] taken before). *)
  Fixpoint supplies (fields : list fld) (vals : nat -> nat -> list bool) (n : nat -> nat) (t : list cycle) : Prop :=
    match t with
    | [] => True
    | c :: t' => (forall j, is_field fields j -> d_v (fst c) j = true -> d_d (fst c) j = vals j (n j)) /\
                 supplies fields vals (fun j => if d_v (fst c) j && q_rd (snd c) j then S (n j) else n j) t'
    end.
  (** field [j] has a bit in word [w] of the frame *)
  Definition begins_in (W : nat) (fields : list fld) (j : nat) : nat := offset fields j / W.
  Definition touches (W : nat) (fields : list fld) (j w : nat) : Prop := begins_in W fields j <= w /\ w <= ends_in W fields j.
  (** No field begins in a word where another one ends and continues to the next word. *)
  Definition tidy (W : nat) (fields : list fld) : Prop := forall a b w, is_field fields a -> is_field fields b -> ends_in W fields a = w -> touches W fields b w -> ends_in W fields b = w.
  (** the inputs of fields are offered all at once or none of them *)
  Definition together (fields : list fld) (i : d_in) : Prop := forall a b, is_field fields a -> is_field fields b -> d_v i a = d_v i b.
  (** bit [p] of the frame belongs to a named field *)
  Definition covered (fields : list fld) (p : nat) : Prop := exists j, is_field fields j /\ offset fields j <= p < offset fields j + width fields j.
End Spec.
