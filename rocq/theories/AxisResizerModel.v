(** Model of hwtLib/amba/axis_comp/resizer.py [Axi4S_resizer].
    data and strb of a word are the list of its bytes, the lowest first, each with its strb bit (keep, if it is used, is handled
    as strb by getDataWidthDependent and not modelled); id, user, dest are [side].  Only USE_STRB elaborates (resizer.py:42). *)
From Verif Require Import Base HsRegModel.

Record axw (S A : Type) := mk_axw { w_cells : list (A * bool); w_side : S; w_last : bool }.
Arguments mk_axw {S A}. Arguments w_cells {S A}. Arguments w_side {S A}. Arguments w_last {S A}.

Section AxisResizer.
  Context {S A : Type}.
  Notation cell := (A * bool)%type.
  Notation word := (axw S A).

  Record rz_in := mk_rzi { rz_vld : bool; rz_word : word; rz_ord : bool }.
  Record rz_out := mk_rzo { rz_rd : bool; rz_ovld : bool; rz_oword : word }.

  (** upscale, resizer.py:71-133.  [k] = ITEMS, [n] bytes of an input word, [z] the byte 0.
      The registers exist for all items (the condition :95 is always true). *)
  Record aup_st := mk_aup { au_cnt : nat; au_regs : nat -> list cell }.
  Definition zeros (z : A) (n : nat) : list cell := repeat (z, false) n.
  Definition aup_init (z : A) (n : nat) : aup_st := mk_aup 0 (fun _ => zeros z n).

  Definition aup_step (z : A) (n k : nat) (s : aup_st) (i : rz_in) : aup_st * rz_out :=
    let w := rz_word i in
    let is_last := (au_cnt s =? k - 1) || w_last w in                                          (* :83 *)
    let hs := rz_vld i && rz_ord i in                                                          (* :82 *)
    let item j := if au_cnt s =? j then w_cells w else au_regs s j in                          (* :104-108 *)
    let regs' j := if hs && is_last then zeros z n                                             (* :98-102 *)
                   else if rz_vld i && (au_cnt s =? j) then w_cells w else au_regs s j in
    let cnt' := if hs then (if is_last then 0 else winc (log2ceil (k + 1)) (au_cnt s)) else au_cnt s in  (* :134-140 *)
    (mk_aup cnt' regs',
     mk_rzo (rz_ord i) (rz_vld i && is_last)                                                   (* :119-120 *)
            (mk_axw (concat (map item (seq 0 k))) (w_side w) (w_last w))).                     (* :123-129 *)

  (** downscale, resizer.py:142-203.  [k] = ITEMS, [m] bytes of an output word; the input register is an Axi4SReg
      (HandshakedReg, LATENCY=1).  [x] is the undefined data for a counter value without a case (:179). *)
  Record adn_st := mk_adn { ad_cnt : nat; ad_reg : stage word }.
  Definition adn_init (w0 : word) : adn_st := mk_adn 0 (mk_stage KLat false w0).

  (** nextAreNotValidLogic, resizer.py:51-69: strb[ITEMS*ITEM_W : (i+1)*ITEM_W] == 0 for the current item i < ITEMS-1 *)
  Definition next_not_valid (k m cnt : nat) (cells : list cell) : bool :=
    existsb (fun i => (cnt =? i) && negb (existsb snd (skipn ((i + 1) * m) (firstn (k * m) cells)))) (seq 0 (k - 1)).

  Definition adn_step (x : list cell) (k m : nat) (s : adn_st) (i : rz_in) : adn_st * rz_out :=
    let r := ad_reg s in
    let w := sdat r in
    let is_last := (ad_cnt s =? k - 1) || next_not_valid k m (ad_cnt s) (w_cells w) in         (* :163-169 *)
    let reg_rd := rz_ord i && is_last && occ r in                                              (* :189-190 *)
    let hs := occ r && rz_ord i in
    let cells := if ad_cnt s <? k then firstn m (skipn (m * ad_cnt s) (w_cells w)) else x in   (* :172-180 *)
    let cnt' := if hs then (if is_last then 0 else winc (log2ceil (k + 1)) (ad_cnt s)) else ad_cnt s in
    (mk_adn cnt' (stage_next r (rz_vld i) (rz_word i) reg_rd),
     mk_rzo (stage_rd r reg_rd) (occ r) (mk_axw cells (w_side w) (w_last w && is_last))).
End AxisResizer.
Arguments rz_in : clear implicits. Arguments rz_out : clear implicits.
Arguments aup_st : clear implicits. Arguments adn_st : clear implicits.
