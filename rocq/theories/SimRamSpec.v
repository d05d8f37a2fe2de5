From Verif Require Import Base SimRamModel.

(** byte [x] belongs to the region *)
Definition in_reg (r : nat * nat) (x : nat) : Prop := fst r <= x < fst r + snd r.
(** no byte belongs to two allocations *)
Definition no_overlap (rs : list (nat * nat)) : Prop :=
  forall i j r q x, nth_error rs i = Some r -> nth_error rs j = Some q -> in_reg r x -> in_reg q x -> i = j.
(** malloc is asked for whole cells only *)
Definition whole_cells (cs : nat) (o : alloc_op) : Prop :=
  match o with
  | OMalloc size k => size mod cs = 0 /\ k mod cs = 0 /\ 0 < size
  | OCalloc _ _ k _ => k mod cs = 0
  end.
(** value and validity of bit [p] of the memory *)
Definition mem_bit (cs : nat) (s : sim_ram) (p : nat) : bool * bool :=
  match dict_get (sr_data s) (p / (cs * 8)) with
  | None | Some CNone => (false, false)
  | Some (CInt v) => (N.testbit v (N.of_nat (p mod (cs * 8))), true)
  | Some (CVal v m) => (N.testbit v (N.of_nat (p mod (cs * 8))), N.testbit m (N.of_nat (p mod (cs * 8))))
  end.
