(** C152: format strings. *)
From Verif Require Import Base SfpModel SfpSpec SfpProofs.

(** Missing: escaped brackets ([C152_escape_refuted]) and the meaning of a leading zero ([C152_padding_refuted]). *)
Theorem C152_parsed_partial : forall (t0 : str) (l : list (group * str)), plain t0 -> Forall (fun gt => group_ok (fst gt) /\ plain (snd gt)) l ->
  exists ps, parse_format (render t0 l) = Some ps /\ means t0 l ps.
Proof. intros t0 l. exact (c152 l t0). Qed.
Print Assumptions C152_parsed_partial.
(** "a{x:12d}{3:X}b" *)
Example C152_parsed_case :
  let l := [(mk_group [120] [49; 50] 100, []); (mk_group [51] [] 88, [98])] in
  plain [97] /\ Forall (fun gt => group_ok (fst gt) /\ plain (snd gt)) l /\
  parse_format (render [97] l) = Some [PText [97]; PItem (FName [120]) 100 (Some 12); PText []; PItem (FIndex 3) 88 None; PText [98]].
Proof.
  cbv zeta. split; [split; cbn; intuition discriminate|]. split; [|reflexivity].
  repeat constructor; cbn; try lia; try discriminate; intuition discriminate.
Qed.

(** A text with doubled brackets stands for the text with single ones; any text with an opening bracket is refused instead. *)
Theorem C152_escape_refuted : exists s : str, s = [97; LB; 98] /\ escape s = [97; LB; LB; 98] /\ parse_format (escape s) = None.
Proof. exists [97; LB; 98]. repeat split; reflexivity. Qed.
Print Assumptions C152_escape_refuted.
(** This is so for all texts whose brackets are opening ones. *)
Theorem C152_escape_always : forall s : str, In LB s -> Forall (fun c => c = LB \/ plain [c]) s -> parse_format (escape s) = None.
Proof. exact c152_escape. Qed.
Print Assumptions C152_escape_always.
Example C152_escape_case : In LB [97; LB; 98] /\ Forall (fun c => c = LB \/ plain [c]) [97; LB; 98].
Proof. split; [right; left; reflexivity|]. repeat constructor; unfold plain; cbn; intuition discriminate. Qed.

(** The zero which asks for leading zeros instead of spaces is dropped: both formats give the same item. *)
Theorem C152_padding_refuted : exists (g g' : group), g_digits g = [51] /\ g_digits g' = [48; 51] /\ g_name g = g_name g' /\ g_type g = g_type g' /\
  parse_format (render_group g) = parse_format (render_group g') /\ parse_format (render_group g) <> None.
Proof. exists (mk_group [97] [51] 100), (mk_group [97] [48; 51] 100). repeat split; try reflexivity. discriminate. Qed.
Print Assumptions C152_padding_refuted.
