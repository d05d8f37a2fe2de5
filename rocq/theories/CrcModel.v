(** Models of hwtLib/logic/crcComb.py and hwtLib/logic/crc.py.
    Bit vectors are lists of bits, least significant bit first (iterBits order). *)
From Verif Require Import Base.

Definition zipw {A B C} (f : A -> B -> C) (l : list A) (r : list B) : list C := map (fun p => f (fst p) (snd p)) (combine l r).
Definition xor_bits (a b : list bool) : list bool := zipw xorb a b.

(** a row of crc_mask: mask of the state bits, mask of the data bits *)
Definition row := (list bool * list bool)%type.

(** initial 1:1 mapping, crcComb.py:109-112 *)
Definition mask_init (PW DW : nat) : list row :=
  map (fun x => (map (fun y => x =? y) (seq 0 PW), repeat false DW)) (seq 0 PW).

(** val[1][i] = int(not val[1][i]) *)
Definition flip_at (i : nat) (l : list bool) : list bool :=
  zipw (fun j b => if j =? i then negb b else b) (seq 0 (length l)) l.

(** body of the loop, crcComb.py:114-131; [None] for an empty mask (no polynomial bits) *)
Definition mask_step (poly : list bool) (mask : list row) (i : nat) : list row :=
  match rev mask with
  | [] => []
  | v :: _ =>
      let val := (fst v, flip_at i (snd v)) in
      (* appendleft, pop; the first item is skipped by the xor loop *)
      val :: zipw (fun (cm : row) (pb : bool) =>
                     if pb then (xor_bits (fst cm) (fst val), xor_bits (snd cm) (snd val)) else cm)
                  (removelast mask) (tl poly)
  end.

(** buildCrcXorMatrix, crcComb.py:89-133: i from DW-1 down to 0 *)
Definition build_matrix (DW : nat) (poly : list bool) : list row :=
  fold_left (mask_step poly) (rev (seq 0 DW)) (mask_init (length poly) DW).

(** v ^= b for the bits selected by the mask, crcComb.py:143-152 *)
Definition dot (m b : list bool) : bool := fold_left xorb (zipw andb m b) false.

(** applyCrcXorMatrix, crcComb.py:135-157, without the refin reordering *)
Definition apply_matrix (mat : list row) (data state : list bool) : list bool :=
  map (fun r : row => xorb (dot (fst r) state) (dot (snd r) data)) mat.

(** A data word whose width is a multiple of 8, as the list of its bytes (8 bits, LSB first),
    lowest byte first.  bit_list_reversed_endianity reverses the order of the bytes,
    bit_list_reversed_bits_in_bytes the bits of each byte (pyMathBitPrecise, part of the trusted
    base).  Result: inBits as passed to the matrix.  crcComb.py:136-137, 170-174, crc.py:88-91. *)
Definition in_bits (bigendian refin : bool) (bytes : list (list bool)) : list bool :=
  let bs := if bigendian then bytes else rev bytes in
  concat (if refin then map (@rev bool) bs else bs).

Record crc_cfg := mk_cfg { c_poly : list bool; c_init : list bool; c_refin : bool; c_refout : bool;
                           c_xorout : list bool; c_bigendian : bool }.

(** bit_list_reversed_bits_in_bytes of a vector whose width is a multiple of 8 or less than 8
    (the remaining bits form the last, shorter byte): used on XOROUT by CrcComb, crcComb.py:183 *)
Fixpoint rev_in_bytes (fuel : nat) (l : list bool) : list bool :=
  match fuel with
  | 0 => l
  | S f => match l with [] => [] | _ => rev (firstn 8 l) ++ rev_in_bytes f (skipn 8 l) end
  end.

(** CrcComb.hwImpl, crcComb.py:159-189 *)
Definition crc_comb (c : crc_cfg) (bytes : list (list bool)) : list bool :=
  let data := in_bits (c_bigendian c) (c_refin c) bytes in
  let res := apply_matrix (build_matrix (length data) (c_poly c)) data (c_init c) in
  let res' := if c_refout c then rev res else res in
  let fin := if c_refout c then rev_in_bytes (length (c_xorout c)) (c_xorout c) else c_xorout c in
  xor_bits res' fin.

(** next value of the state register for a word, crc.py:60-79 and 101-129: [mw] bytes of which the mask
    selects [n]: data_in_bits[(mask_width - n) * MASK_GRANULARITY:], cut after the bytes were reordered *)
Definition crc_next (c : crc_cfg) (state : list bool) (n : nat) (bytes : list (list bool)) : list bool :=
  let bs := skipn (length bytes - n) (if c_bigendian c then bytes else rev bytes) in
  let data := concat (if c_refin c then map (@rev bool) bs else bs) in
  apply_matrix (build_matrix (length data) (c_poly c)) data state.

(** The mask of a word with MASK_GRANULARITY = 8, crc.py:108-129: the cases are mask(1) .. mask(n), any other
    value is [None] (undefined next state). *)
Fixpoint mask_cnt (m : list bool) : option nat :=
  match m with
  | [] => Some 0
  | true :: m' => match mask_cnt m' with Some k => Some (S k) | None => None end
  | false :: m' => if existsb (fun b => b) m' then None else Some 0
  end.

(** Input of one cycle: dataIn.vld, the bytes of dataIn.data, dataIn.mask, dataIn.last *)
Record crc_in := mk_ci { ci_vld : bool; ci_bytes : list (list bool); ci_mask : list bool; ci_last : bool }.

(** Crc with MASK_GRANULARITY = 8 and LATENCY = 1, crc.py:93-145: registers c and state_tmp.
    [u] is the undefined next state of Switch.Default.  The output is dataOut in this cycle. *)
Definition crc_state_next (c : crc_cfg) (u s : list bool) (i : crc_in) : list bool :=
  if ci_vld i then
    match mask_cnt (ci_mask i) with
    | Some (S k) => crc_next c s (S k) (ci_bytes i)
    | _ => u
    end
  else s.
(** XOROUT and reflection of the output, crc.py:147-157: fin_bits = Concat of the bits LSB first, i.e. reversed *)
Definition crc_output (c : crc_cfg) (s : list bool) : list bool :=
  xor_bits (if c_refout c then rev s else s) (rev (c_xorout c)).
Definition crc_step (c : crc_cfg) (u : list bool) (st : list bool * list bool) (i : crc_in)
  : (list bool * list bool) * list bool :=
  let nxt := crc_state_next c u (fst st) i in
  (((if ci_vld i && ci_last i then c_init c else nxt), nxt), crc_output c (snd st)).

(** Crc without a mask, crc.py:80-106 and 131-135: the input is the word if dataIn.vld.
    [lat0]: LATENCY = 0, dataOut shows the next value of the register; otherwise LATENCY = 1. *)
Definition crcw_step (c : crc_cfg) (lat0 : bool) (s : list bool) (i : option (list (list bool))) : list bool * list bool :=
  let nxt := match i with Some bytes => crc_next c s (length bytes) bytes | None => s end in
  (nxt, crc_output c (if lat0 then nxt else s)).
