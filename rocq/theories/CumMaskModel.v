(** Model of hwtLib/mem/ramCumulativeMask.py [RamCumulativeMask]: one write port and any number of read ports, on a RamSingleClock (ram.py). *)
From Verif Require Import Base.

Section Cum.
  (** content of a byte *)
  Context {B : Type}.
  (** content of ram: the bytes of the data and the bits of the mask of a word; the padding of the mask (MASK_PADDING_W) is not represented *)
  Record cm_mem := mk_cmm { cm_data : nat -> nat -> B; cm_mask : nat -> nat -> bool }.
  Definition cm_word := ((nat -> B) * (nat -> bool))%type.
  (** ram, dout of the first read port and of the others ([None] = undefined), the register preload *)
  Record cm_st := mk_cm { c_mem : cm_mem; c_dout : option cm_word; c_xdout : list (option cm_word); c_pre : bool }.
  (** write port: en.vld, addr, din, we, do_accumulate, do_overwrite *)
  Record cm_wr := mk_cmw { w_vld : bool; w_addr : nat; w_din : nat -> B; w_we : nat -> bool; w_acc : bool; w_ow : bool }.
  (** write port, first read port: en.vld, addr; the other read ports *)
  Record cm_in := mk_cmi { c_w : cm_wr; c_rv : bool; c_ra : nat; c_x : list (bool * nat) }.
  (** write port en.rd; first read port: en.rd, dout with dout_mask; dout of the others (their en.rd is 1) *)
  Record cm_out := mk_cmo { co_wrd : bool; co_rrd : bool; co_d : option cm_word; co_x : list (option cm_word) }.
  Definition cm_init (m : cm_mem) (n : nat) : cm_st := mk_cm m None (repeat None n) false.
  Definition cm_at (m : cm_mem) (a : nat) : cm_word := (cm_data m a, cm_mask m a).
  (** a read only port of the RAM, ram.py:132-137 *)
  Definition cm_read (m : cm_mem) (en : bool) (a : nat) (d : option cm_word) : option cm_word := if en then Some (cm_at m a) else d.

  (** MASK_W = DATA_WIDTH // 8 *)
  Variable MASK_W : nat.
  (** we_for_we_bytes, ramCumulativeMask.py:121-135: is the byte of the mask with the bit [b] written *)
  Definition mask_we (w : cm_wr) (b : nat) : bool :=
    existsb (fun k => (k / 8 =? b / 8) && w_we w k) (seq 0 MASK_W) || negb (w_acc w) || w_ow w.

  (** hwImpl, ramCumulativeMask.py:137-169 *)
  Definition cm_step (s : cm_st) (i : cm_in) : cm_st * cm_out :=
    let w := c_w i in
    let wen := w_vld w && (w_ow w || negb (w_acc w) || c_pre s) in
    let old := match c_dout s with Some d => snd d | None => fun _ => false end in
    let din_mask := fun b => if c_pre s then w_we w b || old b else w_we w b in
    let m := c_mem s in
    let m' := if wen then
        mk_cmm (fun a b => if (a =? w_addr w) && w_we w b then w_din w b else cm_data m a b)
               (fun a b => if (a =? w_addr w) && mask_we w b then din_mask b else cm_mask m a b)
      else m in
    let will := w_vld w && w_acc w && negb (w_ow w) in
    (mk_cm m'
           (cm_read m (will || c_rv i) (if will then w_addr w else c_ra i) (c_dout s))
           (map (fun x : (bool * nat) * option cm_word => cm_read m (fst (fst x)) (snd (fst x)) (snd x)) (combine (c_x i) (c_xdout s)))
           (if w_vld w then negb (c_pre s) && w_acc w && negb (w_ow w) else c_pre s),
     mk_cmo (negb (w_acc w) || w_ow w || c_pre s) (negb will || c_pre s) (c_dout s) (c_xdout s)).
End Cum.
Arguments cm_mem : clear implicits. Arguments cm_word : clear implicits. Arguments cm_st : clear implicits. Arguments cm_wr : clear implicits.
Arguments cm_in : clear implicits. Arguments cm_out : clear implicits.
