(** Model of hwtLib/mem/ramXor.py [RamXorSingleClock] built of memories with one write and one read port
    (PRIMITIVE_MEMORY_PORTS = (WRITE, READ), not can_be_primitive_ram), ramXor.py:89-175. *)
From Verif Require Import Base.

(** pins of a write / read port *)
Record xw := mk_xw { xw_en : bool; xw_addr : nat; xw_din : N }.
Record xr := mk_xr { xr_en : bool; xr_addr : nat }.
(** inputs of a cycle: write ports 0 .. W-1 and read ports *)
Record x_in := mk_xi { xi_w : nat -> xw; xi_r : nat -> xr }.

(** Registers.  [x_bank i]: content of all memories written by port i, they are column i of w_rams and r_rams; all have the
    same content since they share their write port and start with zeros (:122-123, 157-163).  [x_wdout i j]: dout of w_rams[i][j]
    (j <> i).  [x_rdout r i]: dout of r_rams[r][i].  [x_en], [x_addr], [x_data]: the registers of a write port (:148-153). *)
Record x_st := mk_xs {
  x_bank : nat -> nat -> N; x_wdout : nat -> nat -> N; x_rdout : nat -> nat -> N;
  x_en : nat -> bool; x_addr : nat -> nat; x_data : nat -> N }.

(** hwt.code.Xor over ports 0 .. n-1 *)
Fixpoint xor_all (n : nat) (f : nat -> N) : N :=
  match n with 0 => 0%N | S k => N.lxor (xor_all k f) (f k) end.

Section RamXor.
  Variable W : nat.
  (** :155, data of the write of port [i], the diagonal of w_rams is None *)
  Definition xored (s : x_st) (i : nat) : N :=
    N.lxor (x_data s i) (xor_all W (fun j => if j =? i then 0%N else x_wdout s i j)).
  (** :166-174; a read-only port of RamSingleClock keeps dout while en=0 (ram.py:132-140) *)
  Definition x_dout (s : x_st) (i : x_in) (r : nat) : N :=
    xor_all W (fun k => if x_en s k && (x_addr s k =? xr_addr (xi_r i r)) then xored s k else x_rdout s r k).
  Definition x_step (s : x_st) (i : x_in) : x_st * (nat -> N) :=
    (mk_xs (fun k a => if x_en s k && (x_addr s k =? a) then xored s k else x_bank s k a)
           (fun k j => if xw_en (xi_w i k) then x_bank s j (xw_addr (xi_w i k)) else x_wdout s k j)
           (fun r k => if xr_en (xi_r i r) then x_bank s k (xr_addr (xi_r i r)) else x_rdout s r k)
           (fun k => xw_en (xi_w i k)) (fun k => xw_addr (xi_w i k)) (fun k => xw_din (xi_w i k)),
     x_dout s i).
  (** dout, addr and data registers have no reset value *)
  Definition x_init (wd rd : nat -> nat -> N) (a : nat -> nat) (d : nat -> N) : x_st :=
    mk_xs (fun _ _ => 0%N) wd rd (fun _ => false) a d.
End RamXor.
