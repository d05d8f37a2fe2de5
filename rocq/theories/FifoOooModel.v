(** Model of hwtLib/amba/axi_comp/lsu/fifo_oooread.py [FifoOutOfOrderRead]; n = ITEMS. The subclass with the CAM is not modelled. *)
From Verif Require Import Base FifoModel.

(** registers: write_ptr, read_ptr0, looped0 of Fifo.fifo_pointers (mem/fifo.py:76-103), item_valid and item_write_lock
    (fifo_oooread.py:72-74) *)
Record oo_st := mk_oo { oo_w : nat; oo_r : nat; oo_lp : bool; oo_vld : nat -> bool; oo_lck : nat -> bool }.
(** inputs: write_confirm.vld, read_execute.rd, read_confirm (vld and data) *)
Record oo_in := mk_ooi { ooi_wvld : bool; ooi_rrd : bool; ooi_conf : option nat }.
(** outputs: write_confirm.rd, read_execute.vld, read_execute.index; item_valid and item_write_lock are outputs of
    FifoOutOfOrderReadFiltered (fifo_oooread.py:191-192) *)
Record oo_out := mk_ooo { ooo_wrd : bool; ooo_rvld : bool; ooo_idx : nat; ooo_valid : nat -> bool; ooo_lock : nat -> bool }.

(** fifo_oooread.py:71-74, mem/fifo.py:76, 90, 102 *)
Definition oo_init : oo_st := mk_oo 0 0 false (fun _ => false) (fun _ => false).

(** fifo_oooread.py:67-125 with mem/fifo.py:79-121 *)
Definition oo_step (n : nat) (s : oo_st) (i : oo_in) : oo_st * oo_out :=
  let write_wait := (oo_w s =? oo_r s) && oo_lp s in
  let read_wait := (oo_w s =? oo_r s) && negb (oo_lp s) in
  let write_req := ooi_wvld i && negb write_wait && negb (oo_vld s (oo_w s)) in
  let read_req := ooi_rrd i && negb read_wait in
  let fifo_write := write_req && (negb (oo_lp s) || negb (oo_w s =? oo_r s)) in
  let fifo_read := read_req && (oo_lp s || negb (oo_w s =? oo_r s)) in
  let conf j := match ooi_conf i with Some d => d =? j | None => false end in
  (mk_oo (if fifo_write then ptr_inc n (oo_w s) else oo_w s)
         (if fifo_read then ptr_inc n (oo_r s) else oo_r s)
         (if write_req && (oo_w s =? n - 1) then true else if read_req && (oo_r s =? n - 1) then false else oo_lp s)
         (fun j => if conf j then false
                   else if fifo_write && (oo_w s =? j) then true
                   else oo_vld s j)
         (fun j => if conf j then false
                   else if fifo_write && (oo_w s =? j) then false
                   else if (oo_r s =? j) || ((oo_r s =? (j + n - 1) mod n) && read_req) then oo_vld s j
                   else oo_lck s j),
   mk_ooo (negb write_wait && negb (oo_vld s (oo_w s))) (negb read_wait) (oo_r s) (oo_vld s) (oo_lck s)).
