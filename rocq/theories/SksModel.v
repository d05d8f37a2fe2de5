(** Model of hwtLib/amba/axis_comp/frame_deparser/strb_keep_stash.py [StrbKeepStash], [pop_mask_value] and
    [reduce_conditional_StrbKeepStashes].
    Simplified: a mask is the list of its bits, the lowest first; the flag of padding is a bool (not a tuple with enable signals);
    signals are their values in the moment of evaluation; AssertionError is None. *)
From Verif Require Import Base.
Local Open Scope nat_scope.

(** items of the stash: padding of [len] bits of data with its flag, or a mask signal *)
Inductive item := Pad (len : nat) (v : bool) | Sig (bits : list bool).
(** _push_mask_vec, :23-37 *)
Definition push_mask (res : list (list bool)) (len : nat) (v : bool) : option (list (list bool)) :=
  if (len mod 8 =? 0) && (0 <? len) then Some (res ++ [repeat v (len / 8)]) else None.
(** _vec_to_signal, :39-63 *)
Fixpoint vec_loop (l : list item) (res : list (list bool)) (prev : option (nat * bool)) : option (list (list bool)) :=
  match l with
  | [] => match prev with None => Some res | Some (pl, pv) => push_mask res pl pv end
  | Pad len v :: l' =>
      match prev with
      | None => if 0 <? len then vec_loop l' res (Some (len, v)) else None
      | Some (pl, pv) =>
          if Bool.eqb pv v then vec_loop l' res (Some (pl + len, pv))
          else match push_mask res pl pv with None => None | Some res' => vec_loop l' res' (Some (len, v)) end
      end
  | Sig bits :: l' => vec_loop l' (res ++ [bits]) None
  end.
(** Concat of the reversed list has the first item in the lowest bits *)
Definition vec_to_signal (l : list item) : option (list bool) := option_map (@concat bool) (vec_loop l [] None).

(** dict of masks with enable signals, setdefault(k, []).append(en), :107-108 *)
Definition mask_eqb (a b : list bool) : bool := if list_eq_dec Bool.bool_dec a b then true else false.
Fixpoint dict_add (k : list bool) (en : bool) (d : list (list bool * list bool)) : list (list bool * list bool) :=
  match d with
  | [] => [(k, [en])]
  | (k', ens) :: d' => if mask_eqb k k' then (k', ens ++ [en]) :: d' else (k', ens) :: dict_add k en d'
  end.
(** sorted by the value of the mask *)
Fixpoint mask_val (m : list bool) : N := match m with [] => 0%N | b :: m' => ((if b then 1 else 0) + 2 * mask_val m')%N end.
Fixpoint insert (x : list bool * list bool) (l : list (list bool * list bool)) : list (list bool * list bool) :=
  match l with [] => [x] | y :: l' => if (mask_val (fst x) <=? mask_val (fst y))%N then x :: l else y :: insert x l' end.
Definition sorted (l : list (list bool * list bool)) : list (list bool * list bool) := fold_right insert [] l.
Definition any (l : list bool) : bool := existsb (fun b => b) l.
(** pop_mask_value, :81-95 *)
Definition pop_mask_value (d : list (list bool * list bool)) : option (list bool) :=
  match d with
  | [] => None
  | [(v, _)] => Some v
  | _ =>
      let masks := sorted d in
      Some (fold_left (fun m x => if any (snd x) then fst x else m) masks (repeat false (length (fst (hd ([], []) masks)))))
  end.
(** reduce_conditional_StrbKeepStashes, :98-113; each stash with its enable signal. The last lines are
      strb = pop_mask_value(strb_val_to_en)
      strb = pop_mask_value(keep_val_to_en)
      return strb, keep *)
Record stash := mk_stash { k_strb : list item; k_keep : list item }.
Fixpoint reduce_loop (l : list (bool * stash)) (ds dk : list (list bool * list bool)) (keep : option (list bool)) : option (list (list bool * list bool) * list (list bool * list bool) * list bool) :=
  match l with
  | [] => match keep with None => None | Some k => Some (ds, dk, k) end
  | (en, sk) :: l' =>
      match vec_to_signal (k_strb sk), vec_to_signal (k_keep sk) with
      | Some s, Some k => reduce_loop l' (dict_add s en ds) (dict_add k en dk) (Some k)
      | _, _ => None
      end
  end.
Definition reduce_stashes (l : list (bool * stash)) : option (list bool * list bool) :=
  match reduce_loop l [] [] None with
  | None => None
  | Some (ds, dk, keep) =>
      match pop_mask_value ds, pop_mask_value dk with
      | Some _, Some strb => Some (strb, keep)
      | _, _ => None
      end
  end.
