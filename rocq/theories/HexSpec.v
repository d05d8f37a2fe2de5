(** Exceptions in hardware. *)
From Verif Require Import Base HexModel.

(** the handler takes an exception *)
Definition caught (io : hx_in * hx_out) : bool := xr_vld (snd io) && xn_rd (fst io).
(** an exception was raised in a previous cycle [h] and the handler was not ready in that cycle and after it *)
Definition waiting (h : list hx_in) : Prop :=
  exists a c b, h = a ++ c :: b /\ xn_raise c = true /\ xn_rd c = false /\ forall q, In q b -> xn_rd q = false.
(** the condition is kept until the handler is ready *)
Fixpoint kept (is : list hx_in) : Prop :=
  match is with
  | c :: ((c' :: _) as is') => (xn_raise c = true -> xn_rd c = false -> xn_raise c' = true) /\ kept is'
  | _ => True
  end.
(** every exception of the trace is taken in its cycle or later if the handler was ready there *)
Definition delivered (t : list (hx_in * hx_out)) : Prop :=
  forall a c b, t = a ++ c :: b -> xn_raise (fst c) = true -> (exists q, In q (c :: b) /\ xn_rd (fst q) = true) ->
  exists q, In q (c :: b) /\ caught q = true.
