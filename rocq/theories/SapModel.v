(** Model of hwtLib/mem/sim/segmentedArrayProxy.py [SegmentedArrayProxy]. A memory is a function from indexes to values, all memories have [sz] items of [w] bits.
    Writes of values which do not fit and accesses out of the memory raise an exception ([None]). Simplified: values of the memories are known numbers. *)
From Coq Require Import NArith List.
From Verif Require Import Base.
Import ListNotations.
Local Open Scope N_scope.

(** element width, number of memories, size of a memory, words_per_item (:30-36) *)
Record sg_cfg := mk_sg { sg_w : N; sg_n : nat; sg_sz : nat; sg_wpi : option nat }.
Definition sg_mem := nat -> nat -> N.

(** select_bit_range, tools/debug_bus_monitor_ctl.py:19-26 *)
Definition sg_sel (v start len : N) : N := (v / 2 ^ start) mod 2 ^ len.
(** Concat: the first item has the highest bits *)
Definition sg_concat (w : N) (l : list N) : N := fold_left (fun acc x => acc * 2 ^ w + x) l 0.
(** int_to_int_list (pyMathBitPrecise): the lowest bits first, nothing may remain *)
Definition sg_split (v w : N) (n : nat) : option (list N) :=
  if v <? 2 ^ (w * N.of_nat n) then Some (map (fun j => sg_sel v (w * N.of_nat j) w) (seq 0 n)) else None.

(** _getitem, :57-59 *)
Definition sg_getw (c : sg_cfg) (m : sg_mem) (i : nat) : option N :=
  if (i <? sg_sz c)%nat then Some (sg_concat (sg_w c) (map (fun k => m k i) (rev (seq 0 (sg_n c))))) else None.
Fixpoint sg_all {A} (l : list (option A)) : option (list A) :=
  match l with
  | [] => Some []
  | None :: _ => None
  | Some x :: l' => match sg_all l' with Some r => Some (x :: r) | None => None end
  end.
(** __getitem__, :46-55 *)
Definition sg_get (c : sg_cfg) (m : sg_mem) (i : nat) : option N :=
  match sg_wpi c with
  | None => sg_getw c m i
  | Some p =>
      if (p =? 0)%nat || (p =? 1)%nat then sg_getw c m i
      else option_map (sg_concat (sg_w c * N.of_nat (sg_n c))) (sg_all (map (fun i2 => sg_getw c m (i * p + i2)%nat) (rev (seq 0 p))))
  end.

(** val and def_val of the memories (:68), def_val may not be set *)
Record sg_st := mk_ss { ss_val : sg_mem; ss_def : option sg_mem }.
Definition sg_put (m : sg_mem) (k i : nat) (v : N) : sg_mem := fun k' i' => if (k' =? k)%nat && (i' =? i)%nat then v else m k' i'.
(** _setitem, :61-70; simplified: def_val of all memories is set at once *)
Definition sg_set1 (c : sg_cfg) (i : nat) (v : N) (s : option sg_st) (k : nat) : option sg_st :=
  match s with
  | None => None
  | Some s =>
      let x := sg_sel v (N.of_nat k * 8) 8 in
      if (i <? sg_sz c)%nat && (x <? 2 ^ sg_w c)
      then Some (mk_ss (sg_put (ss_val s) k i x) (Some (sg_put (match ss_def s with Some d => d | None => fun _ _ => 0 end) k i x)))
      else None
  end.
Definition sg_setw (c : sg_cfg) (s : option sg_st) (iv : nat * N) : option sg_st :=
  fold_left (sg_set1 c (fst iv) (snd iv)) (seq 0 (sg_n c)) s.
(** __setitem__, :72-82 (ITEM_WIDTH is the width of a word, :36) *)
Definition sg_set (c : sg_cfg) (s : sg_st) (i : nat) (v : N) : option sg_st :=
  match sg_wpi c with
  | None => sg_setw c (Some s) (i, v)
  | Some p =>
      if (p =? 0)%nat || (p =? 1)%nat then sg_setw c (Some s) (i, v)
      else match sg_split v (sg_w c * N.of_nat (sg_n c)) p with
           | Some l => fold_left (sg_setw c) (map (fun x => ((i * p + fst x)%nat, snd x)) (combine (seq 0 p) l)) (Some s)
           | None => None
           end
  end.
(** clean, :38-44 *)
Definition sg_clean (s : sg_st) : sg_st := mk_ss (fun _ _ => 0) (Some (fun _ _ => 0)).
(** __len__, :84-85 *)
Definition sg_len (c : sg_cfg) : option nat :=
  match sg_wpi c with None => None | Some p => if (p =? 0)%nat then None else Some (sg_sz c / p)%nat end.

Inductive sg_op := SgSet (i : nat) (v : N) | SgClean.
Definition sg_do (c : sg_cfg) (s : option sg_st) (o : sg_op) : option sg_st :=
  match s with
  | None => None
  | Some s => match o with SgSet i v => sg_set c s i v | SgClean => Some (sg_clean s) end
  end.
Definition sg_run (c : sg_cfg) (s : sg_st) (l : list sg_op) : option sg_st := fold_left (sg_do c) l (Some s).
