(** Model of hwtLib/mem/fifoDrop.py [FifoDrop]. *)
From Verif Require Import Base FifoModel.

Section FifoDrop.
  Context {A : Type}.
  Variable DEPTH : nat.

  (** Registers, fifoDrop.py:104-124, 149-154 (dataOut.data is a clocked output), 185-237.
      [d_spc] is space_reg, [d_size] size_reg, [d_stash] stash_size_reg. *)
  Record fd_st := mk_fd {
    d_wr : nat; d_wrt : nat; d_rd : nat; d_loop : bool; d_loopt : bool;
    d_mem : nat -> A; d_out : A; d_stash : nat; d_size : nat; d_spc : nat }.

  (** dataIn.en, dataIn.data, dataIn.commit, dataIn.discard, dataOut.en *)
  Record fd_in := mk_fdin { fi_en : bool; fi_data : A; fi_commit : bool; fi_discard : bool; fi_ren : bool }.
  (** dataIn.wait, dataOut.wait, dataOut.data after the edge, size, space *)
  Record fd_out := mk_fdout { fo_wwait : bool; fo_rwait : bool; fo_rdata : A; fo_size : nat; fo_space : nat }.

  Definition fd_init (m0 : nat -> A) (d0 : A) : fd_st := mk_fd 0 0 0 false false m0 d0 0 0 DEPTH.

  (** subtraction in the [size_w] bit registers *)
  Definition wsub (w a b : nat) : nat := wrap w (a + 2 ^ w - b).
  Definition wadd (w a b : nat) : nat := wrap w (a + b).

  Definition fd_step (s : fd_st) (i : fd_in) : fd_st * fd_out :=
    let MAX := DEPTH - 1 in
    let w := size_w DEPTH in
    (* fifoDrop.py:158 and 166 *)
    let rd := fi_ren i && (d_loop s || negb (d_wr s =? d_rd s)) in
    let wr := fi_en i && (negb (d_loopt s) || negb (d_wrt s =? d_rd s)) in
    (* fifoDrop.py:118-124 *)
    let rd' := if rd then ptr_inc DEPTH (d_rd s) else d_rd s in
    (* fifoDrop.py:127-138 *)
    let wrt' := if fi_discard i then d_wr s else if wr then ptr_inc DEPTH (d_wrt s) else d_wrt s in
    let wr' := if fi_discard i then d_wr s else if wr && fi_commit i then wrt' else d_wr s in
    (* fifoDrop.py:140-145 *)
    let mem' := if wr then upd (d_mem s) (d_wrt s) (fi_data i) else d_mem s in
    let out' := if rd then d_mem s (d_rd s) else d_out s in
    (* fifoDrop.py:169-181 *)
    let loopt' := if fi_discard i then d_loop s
                  else if fi_en i && (d_wrt s =? MAX) then true
                  else if fi_ren i && (d_rd s =? MAX) then false else d_loopt s in
    let loop' := if fi_en i && fi_commit i then loopt'
                 else if fi_ren i && (d_rd s =? MAX) then false else d_loop s in
    (* fifoDrop.py:200-211 *)
    let stash' := if fi_discard i then 0
                  else if wr then (if fi_commit i then 0 else winc w (d_stash s)) else d_stash s in
    (* fifoDrop.py:213-225 *)
    let size' := if rd then (if wr && fi_commit i then wadd w (d_size s) (d_stash s) else wdec w (d_size s))
                 else (if wr && fi_commit i then winc w (wadd w (d_size s) (d_stash s)) else d_size s) in
    (* fifoDrop.py:227-241 *)
    let spc' := if rd then (if fi_discard i then wsub w (d_spc s) (d_stash s)
                            else if wr then wdec w (d_spc s) else winc w (d_spc s))
                else (if fi_discard i then wsub w (d_spc s) (d_stash s) else d_spc s) in
    (mk_fd wr' wrt' rd' loop' loopt' mem' out' stash' size' spc',
     (* fifoDrop.py:183-199 *)
     mk_fdout ((d_wrt s =? d_rd s) && d_loopt s) ((d_wr s =? d_rd s) && negb (d_loop s)) out'
              (wadd w (d_size s) (d_stash s)) (d_spc s)).
End FifoDrop.
Arguments fd_st : clear implicits. Arguments fd_in : clear implicits. Arguments fd_out : clear implicits.
