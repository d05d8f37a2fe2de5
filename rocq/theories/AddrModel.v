(** Models of hwtLib/abstract/busStaticRemap.py [BusStaticRemap] and hwtLib/abstract/addressStepTranslation.py
    [AddressStepTranslation]. *)
From Verif Require Import Base.
Local Open Scope N_scope.

(** an item of MEM_MAP *)
Record map_item := mk_mi { mi_in : N; mi_size : N; mi_out : N }.

(** hwt.math.isPow2 *)
Definition isPow2N (x : N) : bool := negb (x =? 0) && (N.land x (x - 1) =? 0).
(** hwt.math.inRange(n, lower, end): lower <= n < end *)
Definition inRange (x lo hi : N) : bool := (lo <=? x) && (x <? hi).
(** HBits(w).from_py(v): ValueError ([None]) if the value does not fit *)
Definition from_py (w v : N) : option N := if v <? 2 ^ w then Some v else None.

(** _normalize_mem_map, busStaticRemap.py:23-35; the input list sorted by its first component is [l]; [false] = AssertionError *)
Fixpoint mem_map_ok (l : list map_item) (last_end : N) : bool :=
  match l with
  | [] => true
  | m :: l' => (0 <? mi_size m) && (last_end <=? mi_in m) && mem_map_ok l' (mi_in m + mi_size m)
  end.

(** translate_addr_val, busStaticRemap.py:37-41: addr - (offset_in - offset_out) on python integers *)
Fixpoint translate_addr_val (mem_map : list map_item) (addr : N) : N :=
  match mem_map with
  | [] => addr
  | m :: l => if inRange addr (mi_in m) (mi_in m + mi_size m) then addr + mi_out m - mi_in m else translate_addr_val l addr
  end.

(** one case of translate_addr_signal, busStaticRemap.py:47-68, for an address signal of AW bits with the value [a]:
    (en_sig, addr_drive).  [None]: elaboration fails, a constant does not fit or a slice has no bits. *)
Definition remap_case (AW : N) (m : map_item) (a : N) : option (bool * N) :=
  let in_al := (mi_in m mod mi_size m =? 0) && isPow2N (mi_size m) in
  let out_al := (mi_out m mod mi_size m =? 0) && isPow2N (mi_size m) in
  if in_al then
    let L := N.size (mi_size m - 1) in  (* (size - 1).bit_length() *)
    if (0 <? L) && (L <? AW) then
      match from_py (AW - L) (N.shiftr (mi_in m) L) with
      | None => None
      | Some hi =>
          let en := N.shiftr a L =? hi in
          if out_al then
            match from_py (AW - L) (mi_out m) with
            | None => None
            | Some top => Some (en, top * 2 ^ L + a mod 2 ^ L)  (* Concat(top, sig_in[L:]) *)
            end
          else
            match from_py AW (mi_out m) with
            | None => None
            | Some o => Some (en, (a mod 2 ^ L + o) mod 2 ^ AW)
            end
      end
    else None
  else
    match from_py AW (mi_in m), from_py AW (mi_in m + mi_size m) with
    | Some lo, Some hi =>
        let en := inRange a lo hi in
        if mi_in m =? mi_out m then Some (en, a)
        else if mi_in m <? mi_out m then
          match from_py AW (mi_out m - mi_in m) with Some d => Some (en, (a + d) mod 2 ^ AW) | None => None end
        else
          match from_py AW (mi_in m - mi_out m) with Some d => Some (en, (a + 2 ^ AW - d) mod 2 ^ AW) | None => None end
    | _, _ => None
    end.
(** SwitchLogic: the first case which is enabled; all cases have to elaborate, busStaticRemap.py:69-70 *)
Fixpoint translate_addr_signal (AW : N) (mem_map : list map_item) (a : N) : option N :=
  match mem_map with
  | [] => Some a
  | m :: l =>
      match remap_case AW m a, translate_addr_signal AW l a with
      | Some (en, v), Some r => Some (if en then v else r)
      | _, _ => None
      end
  end.

(** * AddressStepTranslation *)
(** hwt.math.log2ceil *)
Definition log2ceilN (x : N) : N := if (x =? 0) || (x =? 1) then 1 else N.log2_up x.
(** __init__, addressStepTranslation.py:14-26 *)
Definition align_bits (src_step dst_step : N) : N :=
  if src_step =? dst_step then 0
  else if src_step <? dst_step then log2ceilN (dst_step / src_step - 1)
  else log2ceilN (src_step / dst_step - 1).
(** propagate, addressStepTranslation.py:28-58; the widths of the signals and the value of the source; [None] = AssertionError.
    _reinterpret_cast between bit vectors cuts or zero-extends. *)
Definition propagate (src_step dst_step src_w dst_w offset : N) (src : N) : option N :=
  let ab := align_bits src_step dst_step in
  let cast v := v mod 2 ^ dst_w in
  let add v := if offset =? 0 then v else (v + offset) mod 2 ^ dst_w in
  if isPow2N src_step && isPow2N dst_step then
    if src_step =? dst_step then Some (add (cast src))
    else if dst_step <? src_step then
      if src_w + ab <=? dst_w then Some (add (cast (src * 2 ^ ab))) else None
    else
      if src_w - ab <=? dst_w then Some (add (cast (N.shiftr src ab))) else None
  else None.
