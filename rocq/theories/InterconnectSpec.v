From Verif Require Import Base InterconnectModel.
Local Open Scope Z_scope.

(** address [x] belongs to the region *)
Definition in_region (r : region) (x : Z) : Prop := fst r <= x < fst r + snd r.
(** no address belongs to two regions at different positions of the list *)
Definition disjoint_regions (l : list region) : Prop :=
  forall i j r q x, nth_error l i = Some r -> nth_error l j = Some q -> in_region r x -> in_region q x -> i = j.
Definition pow2_size (s : Z) : Prop := exists k, 0 <= k /\ s = 2 ^ k.
(** the region is a legal placement of the configuration item *)
Definition respects (c : slave_cfg) (r : region) : Prop :=
  snd r = snd c /\ pow2_size (snd r) /\ fst r mod snd r = 0 /\ 0 <= fst r /\
  match fst c with Some a => fst r = a | None => True end.

Local Open Scope nat_scope.
(** masters [a] and [b] see a common slave *)
Definition share (mcon : list (list nat)) (a b : nat) : Prop :=
  a < length mcon /\ b < length mcon /\ exists s, In s (nth a mcon []) /\ In s (nth b mcon []).
(** connected by a chain of common slaves *)
Inductive linked (mcon : list (list nat)) : nat -> nat -> Prop :=
| linked_refl a : linked mcon a a
| linked_step a b c : linked mcon a b -> share mcon b c -> linked mcon a c.
