(** Model of hwtLib/structManipulators/structReader.py [StructReader.hwImpl] (requests to the datapump) and [driveReqRem].
    Simplified: READ_ACK is True (no buffer on [get]); addresses which wait on [get] are a list whose head is on the data pins;
    a frame is its first bit and the end of its last part, FrameTmpl.getWordCnt (hwt) is the number of words from its start
    to this end; the parser of the data is not part of the model (see C95). *)
From Verif Require Import Base.
Local Open Scope nat_scope.

(** first bit (aligned to words), end of the last part *)
Definition layout := (N * N)%type.
(** driveReqRem, :115-116: ceil((MAX_BITS % DATA_WIDTH) / 8) *)
Definition req_rem (dw bits : N) : N := ((bits mod dw + 7) / 8)%N.
(** req.addr, req.len, req.rem, :131-133 *)
Definition word_cnt (dw : N) (f : layout) : N := ((snd f - fst f + (dw - 1)) / dw)%N.
Definition rd_req (aw dw addr : N) (f : layout) : N * N * N :=
  (((addr + fst f / 8) mod 2 ^ aw)%N, (word_cnt dw f - 1)%N, req_rem dw (snd f - fst f)).

Record srs := mk_srs { r_todo : list N; r_idx : nat }.
(** transfers in the clock: req, get *)
Record sro := mk_sro { ro_req : option (N * N * N); ro_get : bool }.
(** propagateRequest (:128-139) with the index of StaticForEach (hwt); the input is get.vld and req.rd *)
Definition sr_step (aw dw : N) (fs : list layout) (s : srs) (i : bool * bool) : srs * sro :=
  let get_vld := fst i && negb (match r_todo s with [] => true | _ => false end) in
  let fire := get_vld && snd i in
  let is_last := r_idx s =? length fs - 1 in
  (mk_srs (if fire && is_last then tl (r_todo s) else r_todo s) (if fire then (if is_last then 0 else S (r_idx s)) else r_idx s),
   mk_sro (if fire then Some (rd_req aw dw (hd 0%N (r_todo s)) (nth (r_idx s) fs (0, 0)%N)) else None) (fire && is_last)).
Definition sr_init (addrs : list N) : srs := mk_srs addrs 0.
(** the number of bits of rem, hwtLib/amba/datapump/intf.py:42 *)
Definition rem_bits (dw : N) : nat := log2ceil (N.to_nat (dw / 8)%N).
