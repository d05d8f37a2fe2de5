From Verif Require Import Base VldCdcModel.

(** the words given to dataIn *)
Definition vs_sent {A} (es : list (vs_ev A)) : list A :=
  flat_map (fun e => match e with VIn true d => [d] | _ => [] end) es.
(** the words seen by the consumer *)
Definition vs_got {A} (os : list (option (bool * A))) : list A :=
  flat_map (fun o => match o with Some (true, d) => [d] | _ => [] end) os.
(** dataOut_clk is not slower: there is an edge of dataOut_clk after each edge of dataIn_clk before the next one *)
Fixpoint not_slower {A} (es : list (vs_ev A)) (pending : bool) : Prop :=
  match es with
  | [] => True
  | VIn _ _ :: es' => pending = false /\ not_slower es' true
  | VOut :: es' => not_slower es' false
  end.
(** the edges of the clocks alternate *)
Definition alternate {A} (l : list (bool * A)) : list (vs_ev A) := flat_map (fun x => [VIn (fst x) (snd x); VOut]) l.
(** the data of each valid word is still there two cycles later *)
Definition held {A} (l : list (bool * A)) : Prop :=
  forall k d x, nth_error l k = Some (true, d) -> nth_error l (k + 2) = Some x -> snd x = d.
