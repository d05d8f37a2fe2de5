(** Model of hwtLib/amba/axi_comp/cache/lru_array.py [AxiCacheLruArray] with its memory [RamXorSingleClock] (RamXorModel.v) and
    the expressions of [PseudoLru] (PlruModel.v).  Records of the array are numbers with bit i of the register as bit i. *)
From Verif Require Import Base RamXorModel PlruModel.

(** pins of an incr port (:25-40) *)
Record l_incr := mk_li { li_vld : bool; li_index : nat; li_way : nat }.
(** pins driven by the neighbours in a cycle (:68-89) *)
Record l_in := mk_lin {
  ln_set : bool; ln_set_addr : nat; ln_set_data : N;
  ln_req : bool; ln_req_addr : nat; ln_rd : bool;
  ln_incr : nat -> l_incr }.
(** pins driven by the component: set.rd is constant 1 (:169) *)
Record l_out := mk_lo { lo_req_rd : bool; lo_incr_rd : bool; lo_vld : bool; lo_data : nat }.
(** registers victim_req_tmp (:117-124), incr_tmp (:139-147; the field way is written but never read, it is left out) and the memory *)
Record l_st := mk_ls { l_vld : bool; l_index : nat; l_ivld : nat -> bool; l_iindex : nat -> nat; l_ram : x_st }.

Section LruArray.
  (** INCR_PORT_CNT, and the expressions of PseudoLru for a record *)
  Variable n : nat.
  Variable mark : N -> N -> N.
  Variable lru : N -> nat.

  (** hwtLib/logic/binToOneHot.py *)
  Definition onehot (w : nat) : N := N.shiftl 1 (N.of_nat w).
  (** :101-106 [merge_successor_writes_into_incr_one_hot], over ports from <= j < from + cnt with index [a] *)
  Fixpoint merge (s : l_st) (i : l_in) (a : nat) (from cnt : nat) (oh : N) : N :=
    match cnt with
    | O => oh
    | S c => merge s i a (S from) c
               (N.lor oh (if l_ivld s from && (l_iindex s from =? a) then onehot (li_way (ln_incr i from)) else 0%N))
    end.
  (** read ports of the memory: 0 is for victims (:115-116), k+1 for incr port k (:184-185) *)
  Definition l_rports (i : l_in) (r : nat) : xr :=
    match r with
    | O => mk_xr (ln_req i) (ln_req_addr i)
    | S k => mk_xr (li_vld (ln_incr i k)) (li_index (ln_incr i k))
    end.
  (** dout of a read port, it does not depend on write ports *)
  Definition l_dout (s : l_st) (i : l_in) (r : nat) : N :=
    x_dout (S n) (l_ram s) (mk_xi (fun _ => mk_xw false 0 0%N) (l_rports i)) r.
  (** :155-156 *)
  Definition l_victim (s : l_st) (i : l_in) : nat := lru (l_dout s i 0).
  (** :170-180 *)
  Definition l_w0 (s : l_st) (i : l_in) : xw :=
    if ln_set i then mk_xw true (ln_set_addr i) (ln_set_data i)
    else mk_xw (l_vld s) (l_index s) (mark (l_dout s i 0) (merge s i (l_index s) 0 n (onehot (l_victim s i)))).
  (** :189-194, an earlier port writes to the same index *)
  Definition l_prev (s : l_st) (k : nat) : bool :=
    (l_vld s && (l_index s =? l_iindex s k)) || existsb (fun j => l_ivld s j && (l_iindex s j =? l_iindex s k)) (seq 0 k).
  (** :196-207; the one-hot value is made of the pins of the port (:152), not of incr_tmp *)
  Definition l_wk (s : l_st) (i : l_in) (k : nat) : xw :=
    mk_xw (l_ivld s k && negb (l_prev s k) && negb (ln_set i)) (l_iindex s k)
          (mark (l_dout s i (S k)) (merge s i (l_iindex s k) (S k) (n - S k) (onehot (li_way (ln_incr i k))))).
  Definition l_wports (s : l_st) (i : l_in) (w : nat) : xw := match w with O => l_w0 s i | S k => l_wk s i k end.
  Definition l_ports (s : l_st) (i : l_in) : x_in := mk_xi (l_wports s i) (l_rports i).
  (** :127, :128 *)
  Definition l_load (s : l_st) (i : l_in) : bool := (negb (l_vld s) || ln_rd i) && negb (ln_set i).
  (** :127, :186, :159-160 *)
  Definition l_o (s : l_st) (i : l_in) : l_out :=
    mk_lo (negb (ln_set i) && (negb (l_vld s) || ln_rd i)) (negb (ln_set i)) (l_vld s && negb (ln_set i)) (l_victim s i).
  (** :128-131, :148-150 *)
  Definition l_next (s : l_st) (i : l_in) : l_st :=
    mk_ls (if l_load s i then ln_req i else l_vld s)
          (if l_load s i then ln_req_addr i else l_index s)
          (fun k => li_vld (ln_incr i k) && negb (ln_set i))
          (fun k => li_index (ln_incr i k))
          (fst (x_step (S n) (l_ram s) (l_ports s i))).
  Definition l_step (s : l_st) (i : l_in) : l_st * l_out := (l_next s i, l_o s i).
  (** the registers of indexes have no reset value; the memory after the reset *)
  Definition l_init (x : nat) (ix : nat -> nat) (wd rd : nat -> nat -> N) (ar : nat -> nat) (dr : nat -> N) : l_st :=
    mk_ls false x (fun _ => false) ix (x_init wd rd ar dr).
End LruArray.

(** PseudoLru over a record of [w] bits: PseudoLru(dout).mark_use_many(mask) and get_lru(); the mask has w + 1 bits.
    [get_lru] is defined for all records of 1 or 3 bits, the only widths accepted by the constructor (pseudo_lru.py:71). *)
Definition to_bits (w : nat) (x : N) : list bool := map (fun k => N.testbit x (N.of_nat k)) (seq 0 w).
Definition of_bits (l : list bool) : N := fold_right (fun (b : bool) x => ((if b then 1 else 0) + 2 * x)%N) 0%N l.
Definition plru_mark (w : nat) (x mask : N) : N := of_bits (mark_use_many (to_bits w x) (to_bits (w + 1) mask)).
Definition plru_lru (w : nat) (x : N) : nat :=
  match get_lru (to_bits w x) with
  | Some b => fold_left (fun m (c : bool) => 2 * m + (if c then 1 else 0)) b 0
  | None => 0
  end.
