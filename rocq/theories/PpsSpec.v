(** Polynomials as text. *)
From Coq Require Import ZArith.
From Verif Require Import Base PpsModel.

(** A term: spaces, sign, spaces, decimal digits of the coefficient (may be empty), the power *)
Inductive power := Const | Px | Pxn (digits : list nat).
Record term := mk_t { t_before : nat; t_sign : option bool; t_after : nat; t_coef : list nat; t_pow : power }.
Definition text_of (t : term) : list ch :=
  repeat Sp (t_before t) ++ match t_sign t with None => [] | Some false => [Plus] | Some true => [Minus] end ++ repeat Sp (t_after t) ++ map D (t_coef t) ++
  match t_pow t with Const => [] | Px => [X] | Pxn ds => X :: Hat :: map D ds end.
Definition text (l : list term) : list ch := flat_map text_of l.

(** what it means *)
Definition decimal (ds : list nat) : nat := fold_left (fun a d => a * 10 + d) ds 0.
Definition coef_of (t : term) : Z :=
  let a := match t_coef t with [] => 1%Z | ds => Z.of_nat (decimal ds) end in match t_sign t with Some true => (- a)%Z | _ => a end.
Definition exp_of (t : term) : nat := match t_pow t with Const => 0 | Px => 1 | Pxn ds => decimal ds end.
Definition coef_at (l : list term) (k : nat) : Z := fold_right (fun t a => if exp_of t =? k then (coef_of t + a)%Z else a) 0%Z l.
Definition meaning (l : list term) (width : nat) : list Z := map (coef_at l) (seq 0 width).

(** terms are written properly: each has something, all but the first one have a sign *)
Definition proper_term (t : term) : Prop :=
  (t_pow t = Const -> t_coef t <> []) /\ (forall ds, t_pow t = Pxn ds -> ds <> []) /\ (t_sign t = None -> t_after t = 0) /\
  Forall (fun d => d < 10) (t_coef t).
Definition proper_text (l : list term) : Prop := Forall proper_term l /\ Forall (fun t => t_sign t <> None) (tl l).
(** Guard of the proved part: a coefficient is not separated from its sign (except + 1) and one which starts with 1 has no + *)
Definition readable (t : term) : Prop :=
  t_coef t = [] \/ t_sign t = None \/ (t_sign t = Some false /\ t_coef t = [1]) \/ (t_after t = 0 /\ (t_sign t = Some false -> hd 0 (t_coef t) <> 1)).
