From Verif Require Import Base RamXorModel.

Section Spec.
  Variable W : nat.
  (** write port [k] writes address [a] in cycle [c] *)
  Definition x_writes (c : x_in) (k a : nat) : Prop := k < W /\ xw_en (xi_w c k) = true /\ xw_addr (xi_w c k) = a.
  (** value at [a] after cycle [c] of an ordinary memory *)
  Definition mem_after (c : x_in) (a : nat) (v : N) : N :=
    match find (fun k => xw_en (xi_w c k) && (xw_addr (xi_w c k) =? a)) (seq 0 W) with
    | Some k => xw_din (xi_w c k)
    | None => v
    end.
  (** content of [a] after the history of an ordinary memory, initially zero *)
  Definition x_content (h : list x_in) (a : nat) : N := fold_left (fun v c => mem_after c a v) h 0%N.

  (** no two ports write the same address in the same cycle *)
  Definition no_clash (c : x_in) : Prop := forall k j a, x_writes c k a -> x_writes c j a -> k = j.
  (** no two ports write the same address in two successive cycles *)
  Definition no_clash2 (c c' : x_in) : Prop := forall k j a, x_writes c k a -> x_writes c' j a -> k = j.
  Fixpoint disciplined (h : list x_in) : Prop :=
    match h with
    | [] => True
    | c :: h' => no_clash c /\ (match h' with c' :: _ => no_clash2 c c' | [] => True end) /\ disciplined h'
    end.
End Spec.
