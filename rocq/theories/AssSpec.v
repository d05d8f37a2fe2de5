(** Routing of frames by selects. *)
From Verif Require Import Base AssModel.

Section Spec.
  Context {A : Type}.
  Definition one_hot (n j : nat) : list bool := map (fun k => k =? j) (seq 0 n).
  (** every word goes to the output of the first select; the last word of a frame removes the select *)
  Fixpoint route (ss : list nat) (ws : list (A * bool)) : list (nat * (A * bool)) :=
    match ws, ss with w :: ws', j :: ss' => (j, w) :: route (if snd w then ss' else j :: ss') ws' | _, _ => [] end.
  (** selects which remain *)
  Fixpoint remain (ss : list nat) (ws : list (A * bool)) : list nat :=
    match ws, ss with w :: ws', j :: ss' => remain (if snd w then ss' else j :: ss') ws' | _, _ => ss end.
  Definition routed_to (k : nat) (l : list (nat * (A * bool))) : list (A * bool) := map snd (filter (fun x => fst x =? k) l).
  (** what was transferred: words of dataIn, words of the output k *)
  Fixpoint taken (t : list (asi A * aso A)) : list (A * bool) :=
    match t with [] => [] | (i, o) :: t' => match s_in i with Some w => if o_in o then w :: taken t' else taken t' | None => taken t' end end.
  Fixpoint given (k : nat) (t : list (asi A * aso A)) : list (A * bool) :=
    match t with [] => [] | (i, o) :: t' => match o_out o k with Some w => w :: given k t' | None => given k t' end end.
  (** selects which were accepted: their bits *)
  Fixpoint selects (t : list (asi A * aso A)) : list (list bool) :=
    match t with [] => [] | (i, o) :: t' => match s_sel i with Some l => if o_sel o then l :: selects t' else selects t' | None => selects t' end end.
  (** one bit of the select is set *)
  Definition sel_ok (n : nat) (i : asi A) : Prop := match s_sel i with None => True | Some l => exists j, j < n /\ l = one_hot n j end.
End Spec.
