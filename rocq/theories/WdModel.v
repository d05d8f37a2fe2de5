(** Model of hwtLib/amba/axi_comp/lsu/write_aggregator_write_dispatcher.py [AxiWriteAggregatorWriteDispatcher]. *)
From Verif Require Import Base.

Section Wd.
  (** index (id of the item, also id on axi), key (address of the cacheline), data together with its byte mask, id on b *)
  Context {I K D B : Type}.
  (** [n]: BUS_WORDS_IN_CACHE_LINE; WORD_OFFSET_MAX (:53-60), 0 stands for the missing counter if n = 1 *)
  Definition off_max (n : nat) : nat := if n =? 1 then 0 else 2 ^ log2ceil n - 1.

  (** a_tmp; pop_offset; read_pending; item_last_delayed; read_data and read_data_backup as ((data with mask, last), valid) *)
  Record wd_st := mk_wd { a_vld : bool; a_id : I; a_key : K; off : nat; rpend : bool; ldel : bool; rdat : D * bool; rdv : bool; bdat : D * bool; bdv : bool }.
  (** read_execute (vld, index, key); data.en.rd, data.dout with dout_mask; aw.ready, w.ready; b (valid, id); read_confirm.rd *)
  Record wd_in := mk_wi { ex_vld : bool; ex_idx : I; ex_key : K; en_rd : bool; dout : D; aw_rdy : bool; w_rdy : bool; b_vld : bool; b_id : B; rc_rd : bool }.
  (** read_execute.rd; data.en.vld, data.addr; aw (valid, id, addr without the zeros of the offset in cacheline, len); w (valid, data with strb, last);
      b.ready; read_confirm (vld, data) *)
  Record wd_out := mk_wo { ex_rd : bool; en_vld : bool; ra : I * nat; aw_vld : bool; aw_id : I; aw_key : K; aw_len : nat;
    w_vld : bool; w_dat : D; w_last : bool; b_rdy : bool; rc_vld : bool; rc_dat : B }.

  (** [r_ack], :197; bus_ack, :150; a word is requested from the memory, :151-153 *)
  Definition r_ack (s : wd_st) (i : wd_in) : bool := negb (rdv s) || w_rdy i.
  Definition bus_ack (s : wd_st) (i : wd_in) : bool := r_ack s i && (aw_rdy i || negb (off s =? 0)).
  Definition go (s : wd_st) (i : wd_in) : bool := bus_ack s i && en_rd i && ex_vld i.

  Definition wd_step (n : nat) (s : wd_st) (i : wd_in) : wd_st * wd_out :=
    let last := off s =? off_max n in
    let ld := go s i && (off s =? 0) in
    let ra_ := r_ack s i in
    (mk_wd (if ld then true else a_vld s && negb (aw_rdy i)) (if ld then ex_idx i else a_id s) (if ld then ex_key i else a_key s)   (* :116-122 *)
       (if go s i then (if negb (off s =? off_max n) then off s + 1 else 0) else off s)                                            (* :161-171 *)
       (bus_ack s i && ex_vld i && ra_ && en_rd i) (if bus_ack s i && ex_vld i && en_rd i then last else ldel s)                   (* :198-201 *)
       (if ra_ then (if rpend s then (dout i, ldel s) else bdat s) else rdat s)                                                     (* :209-221 *)
       (if ra_ then (if rpend s then true else bdv s) else rdv s)
       (if rpend s then (dout i, ldel s) else bdat s)                                                                               (* :203-207 *)
       (if w_rdy i || negb (rdv s) then false else if rpend s then rdv s else bdv s),                                               (* :223-227 *)
     mk_wo (bus_ack s i && en_rd i && ex_vld i && last) (bus_ack s i && ex_vld i) (ex_idx i, off s)
       (a_vld s) (a_id s) (a_key s) (n - 1)                                                                                         (* :123-133 *)
       (rdv s) (fst (rdat s)) (snd (rdat s))                                                                                        (* :229-232 *)
       (rc_rd i) (b_vld i) (b_id i)).                                                                                               (* :236-238 *)
  (** registers without def_val are arbitrary *)
  Definition wd_init (x : I) (k : K) (l : bool) (r b : D * bool) : wd_st := mk_wd false x k 0 false l r false b false.
End Wd.
Arguments wd_st : clear implicits. Arguments wd_in : clear implicits. Arguments wd_out : clear implicits.
