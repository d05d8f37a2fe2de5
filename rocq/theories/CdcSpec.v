From Verif Require Import Base CdcModel.

Section Spec.
  Context {A : Type}.
  (** words handed over on dataIn: vld & rd at an edge of dataIn_clk *)
  Definition cdc_taken (t : list (hc_ev A * hc_out A)) : list A :=
    flat_map (fun c => match he_in (fst c) with Some (true, d) => if ho_rd (snd c) then [d] else [] | _ => [] end) t.
  (** words handed over on dataOut: vld & rd at an edge of dataOut_clk *)
  Definition cdc_given (t : list (hc_ev A * hc_out A)) : list A :=
    flat_map (fun c => match he_out (fst c) with Some true => if ho_vld (snd c) then [ho_data (snd c)] else [] | _ => [] end) t.
  (** the consumer has rd set at every edge of its clock *)
  Definition always_ready (es : list (hc_ev A)) : Prop := forall e r, In e es -> he_out e = Some r -> r = true.
  (** numbers of edges *)
  Definition in_edges (es : list (hc_ev A)) : nat := length (filter (fun e => match he_in e with Some _ => true | None => false end) es).
  Definition out_edges (es : list (hc_ev A)) : nat := length (filter (fun e => match he_out e with Some _ => true | None => false end) es).
End Spec.
