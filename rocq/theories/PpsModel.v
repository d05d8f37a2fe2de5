(** Model of hwtLib/logic/crcUtils.py [parsePolyStr]. Simplified: characters are represented by the classes which the regular expressions distinguish. *)
From Coq Require Import ZArith.
From Verif Require Import Base.

Inductive ch := Sp | Plus | Minus | Dot | Hat | X | D (d : nat) | Other.
Definition is_sp (c : ch) : bool := match c with Sp => true | _ => false end.
Definition is_d (c : ch) : bool := match c with D _ => true | _ => false end.
Definition is_sign (c : ch) : bool := match c with Plus | Minus => true | _ => false end.
Definition is_dot (c : ch) : bool := match c with Dot => true | _ => false end.
Definition is_hat (c : ch) : bool := match c with Hat => true | _ => false end.
Definition is_x (c : ch) : bool := match c with X => true | _ => false end.
(** c* and c? of a regular expression: matched part and rest *)
Fixpoint star (f : ch -> bool) (l : list ch) : list ch * list ch :=
  match l with [] => ([], []) | c :: l' => if f c then let '(a, r) := star f l' in (c :: a, r) else ([], l) end.
Definition opt (f : ch -> bool) (l : list ch) : list ch * list ch := match l with [] => ([], []) | c :: l' => if f c then ([c], l') else ([], l) end.
(** str.strip *)
Definition strip (l : list ch) : list ch := rev (snd (star is_sp (rev (snd (star is_sp l))))).

(** termpat, :43; every part is optional, the greedy match always succeeds *)
Definition term_match (l : list ch) : list ch * list ch * list ch :=
  let '(a, l) := opt is_sign l in let '(b, l) := star is_sp l in let '(c, l) := star is_d l in let '(d, l) := opt is_dot l in let '(e, l) := star is_d l in
  let '(f, l) := opt is_x l in let '(g, l) := opt is_hat l in let '(h, l) := star is_d l in (a ++ b ++ c ++ d ++ e, f ++ g ++ h, l).
(** findall: an empty match skips one character; fuel is the length of the string *)
Fixpoint findall (fuel : nat) (l : list ch) : list (list ch * list ch) :=
  match fuel with
  | 0 => []
  | S k => let '(n, p, r) := term_match l in
           if length r <? length l then (n, p) :: findall k r else match l with [] => [([], [])] | _ :: l' => ([], []) :: findall k l' end
  end.

Definition dval (acc : nat) (c : ch) : nat := match c with D d => acc * 10 + d | _ => acc end.
(** int(str): sign and digits only *)
Definition py_int (l : list ch) : option Z :=
  let '(s, ds) := opt is_sign l in
  if match ds with [] => false | _ => forallb is_d ds end
  then Some (match s with [Minus] => Z.opp (Z.of_nat (fold_left dval ds 0)) | _ => Z.of_nat (fold_left dval ds 0) end) else None.
(** r"\s*\+\s*1\s*" at the beginning, :13 *)
Definition plus_one (l : list ch) : bool :=
  match snd (star is_sp l) with Plus :: r => match snd (star is_sp r) with D 1 :: _ => true | _ => false end | _ => false end.
(** parsePolyStr_parse_n, :4-15 *)
Definition parse_n (l : list ch) : option Z :=
  match l with
  | [] => Some 1%Z
  | [Minus] => Some (-1)%Z
  | [Plus] => Some 1%Z
  | _ => if plus_one l then Some 1%Z else py_int l
  end.
(** parsePolyStr_parse_p, :18-26; the string is a match of x?\^?(\d+)? *)
Definition parse_p (l : list ch) : option nat :=
  match l with
  | [] => Some 0
  | X :: r => match snd (opt is_hat r) with [] => Some 1 | ds => Some (fold_left dval ds 0) end
  | _ => None
  end.

(** res_dict, :44-54 *)
Fixpoint dict_add (p : nat) (n : Z) (d : list (nat * Z)) : list (nat * Z) :=
  match d with [] => [(p, n)] | (p', n') :: d' => if p' =? p then (p', n' + n)%Z :: d' else (p', n') :: dict_add p n d' end.
Definition pp_term (d : option (list (nat * Z))) (np : list ch * list ch) : option (list (nat * Z)) :=
  match d with
  | None => None
  | Some d =>
      let n := strip (fst np) in let p := strip (snd np) in
      match n, p with
      | [], [] => Some d
      | _, _ => match parse_n n, parse_p p with Some n, Some p => Some (dict_add p n d) | _, _ => None end
      end
  end.
(** :56-57 *)
Fixpoint set_nth (l : list Z) (k : nat) (v : Z) : option (list Z) :=
  match l, k with
  | [], _ => None
  | _ :: l', 0 => Some (v :: l')
  | x :: l', S k' => match set_nth l' k' v with Some r => Some (x :: r) | None => None end
  end.
Definition pp_store (c : option (list Z)) (kv : nat * Z) : option (list Z) := match c with None => None | Some c => set_nth c (fst kv) (snd kv) end.
(** parsePolyStr, :29-59 *)
Definition parse_poly (s : list ch) (width : nat) : option (list Z) :=
  match fold_left pp_term (findall (S (length s)) s) (Some []) with
  | None => None
  | Some d => fold_left pp_store d (Some (repeat 0%Z width))
  end.
