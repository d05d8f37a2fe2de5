(** C160 - parsePolyStr reads polynomials. *)
From Coq Require Import ZArith.
From Verif Require Import Base PpsModel PpsSpec PpsProofs.

(** guard [readable]: a coefficient follows its sign without spaces (except + 1) and one which starts with 1 has no + *)
Theorem C160_read_partial : forall l width, proper_text l -> Forall readable l -> Forall (fun t => exp_of t < width) l ->
  parse_poly (text l) width = Some (meaning l width).
Proof. exact poly_ok. Qed.
(** the example of the documentation raises an exception *)
Theorem C160_doc_refuted : exists l width, proper_text l /\ Forall (fun t => exp_of t < width) l /\ parse_poly (text l) width = None.
Proof. exact doc_refuted. Qed.
(** wrong coefficients are returned *)
Theorem C160_silent_refuted : exists l width c, proper_text l /\ Forall (fun t => exp_of t < width) l /\ parse_poly (text l) width = Some c /\ c <> meaning l width.
Proof. exact silent_refuted. Qed.

Print Assumptions C160_read_partial. Print Assumptions C160_doc_refuted. Print Assumptions C160_silent_refuted.

(** 5x^12 - x+ 1 +x -3x^5 + x^5 *)
Example C160_read_case :
  let l := [mk_t 0 None 0 [5] (Pxn [1; 2]); mk_t 1 (Some true) 1 [] Px; mk_t 0 (Some false) 1 [1] Const; mk_t 1 (Some false) 0 [] Px;
            mk_t 1 (Some true) 0 [3] (Pxn [5]); mk_t 1 (Some false) 1 [] (Pxn [5])] in
  proper_text l /\ Forall readable l /\ Forall (fun t => exp_of t < 13) l /\ meaning l 13 = [1; 0; 0; 0; 0; -2; 0; 0; 0; 0; 0; 0; 5]%Z.
Proof.
  cbv zeta. split; [split; [|repeat constructor; discriminate]; repeat (apply Forall_cons; [repeat split; try discriminate; try (intros ? [= <-]; discriminate); repeat constructor|]); apply Forall_nil|].
  split; [repeat (apply Forall_cons; [unfold readable; cbn; intuition congruence|]); apply Forall_nil|].
  split; [|reflexivity]. repeat (apply Forall_cons; [apply Nat.ltb_lt; reflexivity|]). apply Forall_nil.
Qed.
