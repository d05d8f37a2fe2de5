(** Format strings: texts and groups [{name:digits type}]. *)
From Verif Require Import Base SfpModel.

Record group := mk_group { g_name : str; g_digits : str; g_type : nat }.
Definition render_group (g : group) : str := [LB] ++ g_name g ++ [COLON] ++ g_digits g ++ [g_type g] ++ [RB].
(** t0 {g1} t1 {g2} t2 ..., texts as they are *)
Fixpoint render (t0 : str) (l : list (group * str)) : str :=
  match l with [] => t0 | (g, t) :: l' => t0 ++ render_group g ++ render t l' end.
(** value of a string of decimal digits *)
Fixpoint dec_val (s : str) : nat := match s with [] => 0 | c :: s' => (c - 48) * 10 ^ length s' + dec_val s' end.
Definition digits_str (s : str) : Prop := Forall (fun c => 48 <= c <= 57) s.
(** what a group means *)
Definition group_piece (g : group) (p : piece) : Prop :=
  exists path digits, p = PItem path (g_type g) digits /\
    ((digits_str (g_name g) /\ path = FIndex (dec_val (g_name g))) \/ (~ digits_str (g_name g) /\ path = FName (g_name g))) /\
    digits = match g_digits g with [] => None | ds => Some (dec_val ds) end.
(** the pieces of the format *)
Inductive means : str -> list (group * str) -> list piece -> Prop :=
| means_end t0 : means t0 [] [PText t0]
| means_group t0 g t l p ps : group_piece g p -> means t l ps -> means t0 ((g, t) :: l) (PText t0 :: p :: ps).
(** no brackets *)
Definition plain (s : str) : Prop := ~ In LB s /\ ~ In RB s.
Definition group_ok (g : group) : Prop :=
  plain (g_name g) /\ ~ In COLON (g_name g) /\ g_name g <> [] /\ digits_str (g_digits g) /\ In (g_type g) [100; 98; 111; 120; 88; 115].
(** a text in which brackets are doubled *)
Definition escape (s : str) : str := flat_map (fun c => if (c =? LB) || (c =? RB) then [c; c] else [c]) s.
