(** Model of hwtLib/amba/axis_comp/strformat_fn.py [_parse_format_groups], strings are lists of codes of characters (ASCII only).
    An exception is [None]. *)
From Verif Require Import Base.

Definition str := list nat.
Definition LB : nat := 123.   (* { *)
Definition RB : nat := 125.   (* } *)
Definition COLON : nat := 58.
Definition is_digit (c : nat) : bool := (48 <=? c) && (c <=? 57).
(** str.isdigit *)
Definition all_digits (s : str) : bool := match s with [] => false | _ => forallb is_digit s end.
(** int(s) of a string of digits *)
Definition py_int (s : str) : nat := fold_left (fun a c => 10 * a + (c - 48)) s 0.
(** s.split(c) *)
Fixpoint split_on (c : nat) (cur : str) (s : str) : list str :=
  match s with
  | [] => [cur]
  | x :: s' => if x =? c then cur :: split_on c [] s' else split_on c (cur ++ [x]) s'
  end.
(** re.split with the brackets in a group, strformat_fn.py:15: text, bracket, text, ..., text; adjacent brackets have an empty text between them *)
Fixpoint split_br (cur : str) (s : str) : list str :=
  match s with
  | [] => [cur]
  | x :: s' => if (x =? LB) || (x =? RB) then cur :: [x] :: split_br [] s' else split_br (cur ++ [x]) s'
  end.
Definition str_eqb (a b : str) : bool := if list_eq_dec Nat.eq_dec a b then true else false.

(** TypePath of a group: a name or an index *)
Inductive fpath := FName (n : str) | FIndex (n : nat).
Inductive piece := PText (s : str) | PItem (p : fpath) (t : nat) (digits : option nat).

(** assert of Axi4S_strFormatItem, strformat.py:61: one of d b o x X s *)
Definition type_ok (t : str) : option nat :=
  match t with [c] => if existsb (Nat.eqb c) [100; 98; 111; 120; 88; 115] then Some c else None | _ => None end.
(** number of leading digits, :61-68; the index of the last character if all of them are digits *)
Fixpoint lead (s : str) : nat :=
  match s with
  | [] => 0
  | [_] => 0
  | c :: s' => if is_digit c then S (lead s') else 0
  end.
(** body of a group, :53-74 *)
Definition parse_group (b : str) : option piece :=
  match split_on COLON [] b with
  | [name; ft] =>
      match ft with
      | [] => None      (* int("") *)
      | _ =>
          let i := lead ft in
          match type_ok (skipn i ft) with
          | Some t => Some (PItem (if all_digits name then FIndex (py_int name) else FName name) t (if 0 <? i then Some (py_int (firstn i ft)) else None))
          | None => None
          end
      end
  | _ => None           (* without type, or too many colons: assert *)
  end.

Definition cons_opt (p : piece) (r : option (list piece)) : option (list piece) :=
  match r with Some l => Some (p :: l) | None => None end.
(** the loop, :19-81; [grp]: group_start is not None, [body]: current_group_body, None or empty are the same *)
Fixpoint parse_tokens (grp : bool) (body : str) (ts : list str) : option (list piece) :=
  match ts with
  | [] => if grp then None else Some []                      (* t is None *)
  | t :: ts' =>
      if negb grp then
        if str_eqb t [LB] then
          match ts' with
          | [] => None                                        (* t_next is None *)
          | t2 :: ts2 => if str_eqb t2 [LB] then cons_opt (PText t) (parse_tokens false body ts2) else parse_tokens true body ts'
          end
        else if str_eqb t [RB] then
          match ts' with
          | t2 :: ts2 => if str_eqb t2 [RB] then cons_opt (PText t) (parse_tokens false body ts2) else None
          | [] => None
          end
        else cons_opt (PText t) (parse_tokens false body ts')
      else
        if str_eqb t [LB] then None
        else if str_eqb t [RB] then
          match body with
          | [] => None
          | _ => match parse_group body with Some p => cons_opt p (parse_tokens false [] ts') | None => None end
          end
        else match body with [] => parse_tokens true t ts' | _ => None end
  end.
Definition parse_format (s : str) : option (list piece) := parse_tokens false [] (split_br [] s).
