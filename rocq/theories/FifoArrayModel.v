(** Model of hwtLib/mem/fifoArray.py [FifoArray]. *)
From Verif Require Import Base OneHotModel.

Section FifoArray.
  Context {A : Type}.
  (** ITEMS = 2^k with k >= 1, then addr_t = HBits(log2ceil(ITEMS - 1)) has k bits (fifoArray.py:172).  For another ITEMS the
      2^addr_width bit results of binToOneHot do not match item_valid and hwt refuses the operators of :213-214. *)
  Variable k : nat.
  Definition ITEMS : nat := 2 ^ k.

  (** registers item_valid, item_last, insert_addr_next (:190-194) and the memories values, next_ptrs (:216-217) *)
  Record fa_st := mk_fa { fa_valid : list bool; fa_last : list bool; fa_addr : nat; fa_val : nat -> A; fa_next : nat -> nat }.
  Definition fa_init (v0 : nat -> A) (n0 : nat -> nat) : fa_st := mk_fa (repeat false ITEMS) (repeat false ITEMS) 0 v0 n0.

  (** insert.vld, addr, append, data; pop.rd, pop.addr *)
  Record fa_in := mk_fai { i_vld : bool; i_addr : nat; i_append : bool; i_data : A; p_rd : bool; p_addr : nat }.
  (** insert.rd, addr_ret; pop.vld, data, last, addr_next *)
  Record fa_out := mk_fao { i_rd : bool; i_ret : nat; p_vld : bool; p_data : A; p_last : bool; p_next : nat }.

  (** bitwise operators of bit vectors *)
  Definition and_not (a b : list bool) : list bool := map (fun p => fst p && negb (snd p)) (combine a b).
  Definition or_bits (a b : list bool) : list bool := map (fun p => fst p || snd p) (combine a b).

  (** One clock edge, fifoArray.py:190-229.  oneHotToBin always has a result here (its input is not empty). *)
  Definition fa_step (s : fa_st) (i : fa_in) : fa_st * fa_out :=
    let rd := existsb negb (fa_valid s) in                                        (* item_valid != mask(ITEMS) *)
    let pvld := existsb (fun b => b) (fa_valid s) in                              (* item_valid != 0 *)
    let ins := i_vld i && rd in
    let pop_one_hot := bin_to_onehot k (p_addr i) (pvld && p_rd i) in
    let insert_one_hot := bin_to_onehot k (fa_addr s) ins in
    let insert_parent_one_hot := bin_to_onehot k (i_addr i) (ins && i_append i) in
    let valid' := or_bits (and_not (fa_valid s) pop_one_hot) insert_one_hot in
    let last' := or_bits (and_not (fa_last s) insert_parent_one_hot) insert_one_hot in
    let addr' := match onehot_to_bin (map negb valid') with Some a => a | None => 0 end in
    (mk_fa valid' last' addr'
           (if ins then upd (fa_val s) (fa_addr s) (i_data i) else fa_val s)
           (if ins then upd (fa_next s) (i_addr i) (fa_addr s) else fa_next s),
     mk_fao rd (fa_addr s) pvld (fa_val s (p_addr i)) (nth (p_addr i) (fa_last s) false && nth (p_addr i) (fa_valid s) false)
            (fa_next s (p_addr i))).
End FifoArray.
Arguments fa_st : clear implicits. Arguments fa_in : clear implicits. Arguments fa_out : clear implicits.
