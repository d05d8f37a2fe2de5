(** Model of hwtLib/amba/axi_comp/sim/ram.py [Axi4SimRam] with checkRequests, onReadReq and onWriteReq of
    hwtLib/amba/datapump/sim_ram.py [AxiDpSimRam].  The memory (SimRam.data) is the dictionary of SimRamModel.
    Not modelled: the id of a word of AXI3 (HAS_W_ID), requests which are not fully valid (parseReq raises). *)
From Verif Require Import Base SimRamModel.

(** a value of HBits(8*cellSize): val and vld_mask *)
Record hval := mk_hv { hv_val : N; hv_vld : N }.
(** (_id, addr, size) of parseReq, ram.py:84-93: [size] is len + 1 *)
Record req := mk_rq { rq_id : nat; rq_addr : nat; rq_size : nat }.
(** (data, strb, last) in the queue of the agent of channel w, ram.py:143-150 *)
Record wword := mk_ww { ww_data : hval; ww_strb : N; ww_last : bool }.
(** (id, data, RESP_OKAY, last) put to the queue of the agent of channel r, ram.py:95-96 *)
Record rword := mk_rw { rw_id : nat; rw_data : cell; rw_last : bool }.

(** assignment self.data[k] = v *)
Definition dict_set (d : list (nat * cell)) (k : nat) (v : cell) : list (nat * cell) := (k, v) :: d.
(** set_bit_range of pyMathBitPrecise *)
Definition set_bit_range (base : N) (start width : nat) (v : N) : N :=
  let m := N.ones (N.of_nat width) in
  N.lor (N.ldiff base (N.shiftl m (N.of_nat start))) (N.shiftl (N.land v m) (N.of_nat start)).

Section Asr.
  Variable cs : nat.  (* cellSize = DATA_WIDTH // 8 *)
  (** self.allMask, ram.py:77 *)
  Definition allMask : N := N.ones (N.of_nat cs).

  (** the loop at ram.py:166-171 for one of val, vld_mask *)
  Definition merge (strb cur new : N) : N :=
    fold_left (fun c i => if N.testbit strb (N.of_nat i) then set_bit_range c (i * 8) 8 (get_bit_range new (i * 8) 8) else c)
      (seq 0 cs) cur.
  (** _write_single_word, ram.py:152-177 *)
  Definition write_word (d : list (nat * cell)) (data : hval) (strb : N) (k : nat) : list (nat * cell) :=
    if N.eqb strb 0 then d
    else if negb (N.eqb strb allMask) then
      let '(cv, cm) := match dict_get d k with
                       | None | Some CNone => (0%N, 0%N)
                       | Some (CInt v) => (v, allMask)
                       | Some (CVal v m) => (v, m)
                       end in
      let v := merge strb cv (hv_val data) in
      let m := merge strb cm (hv_vld data) in
      dict_set d k (if N.eqb m allMask then CInt v else CVal v m)
    else dict_set d k (CVal (hv_val data) (hv_vld data)).

  (** the loop of doWrite at an aligned address, ram.py:186-195; [None] = exception *)
  Fixpoint write_beats (d : list (nat * cell)) (q : list wword) (k n : nat) {struct n} : option (list (nat * cell) * list wword) :=
    match n with
    | 0 => Some (d, q)
    | S n' =>
        match q with
        | [] => None
        | w :: q' =>
            if Bool.eqb (ww_last w) (n' =? 0) then write_beats (write_word d (ww_data w) (ww_strb w) k) q' (S k) n'
            else None
        end
    end.
  (** doWrite with allow_unaligned_addr=False, ram.py:179-195; the acknowledge (ram.py:206-209) is added by [check] *)
  Definition do_write (d : list (nat * cell)) (q : list wword) (r : req) : option (list (nat * cell) * list wword) :=
    if negb (rq_addr r mod cs =? 0) then None
    else write_beats d q (rq_addr r / cs) (rq_size r).

  (** the loop of doRead at an aligned address, ram.py:113-141; [None] = exception *)
  Fixpoint read_beats (d : list (nat * cell)) (id k n : nat) : option (list rword) :=
    match n with
    | 0 => Some []
    | S n' =>
        match dict_get d k with
        | None | Some CNone => None
        | Some c => match read_beats d id (S k) n' with
                    | Some l => Some (mk_rw id c (n' =? 0) :: l)
                    | None => None
                    end
        end
    end.
  (** doRead with allow_unaligned_addr=False, ram.py:98-141 *)
  Definition do_read (d : list (nat * cell)) (r : req) : option (list rword) :=
    if negb (rq_addr r / cs * cs =? rq_addr r) then None
    else read_beats d (rq_id r) (rq_addr r / cs) (rq_size r).

  (** the queues of the agents, rPending, wPending and the memory *)
  Record asr := mk_asr {
    ar_q : list req; aw_q : list req; w_q : list wword;
    r_pend : list req; w_pend : list req;
    r_out : list rword; b_out : list nat;
    mem : list (nat * cell) }.
  Definition asr_init (d : list (nat * cell)) : asr := mk_asr [] [] [] [] [] [] [] d.
  (** what the agents put to their queues since the last check *)
  Record arr := mk_arr { in_ar : list req; in_aw : list req; in_w : list wword }.

  (** self.arAg.data.pop(), sim_ram.py:135-141: the newest element *)
  Definition pop (q : list req) : list req * list req :=
    match rev q with [] => ([], []) | x :: q' => (rev q', [x]) end.
  (** the read part of checkRequests, sim_ram.py:79-84 *)
  Definition check_r (s : asr) : option asr :=
    let '(arq, new) := pop (ar_q s) in
    match r_pend s ++ new with
    | [] => Some (mk_asr arq (aw_q s) (w_q s) [] (w_pend s) (r_out s) (b_out s) (mem s))
    | r :: pend =>
        match do_read (mem s) r with
        | None => None
        | Some ws => Some (mk_asr arq (aw_q s) (w_q s) pend (w_pend s) (r_out s ++ ws) (b_out s) (mem s))
        end
    end.
  (** the write part of checkRequests, sim_ram.py:86-91 *)
  Definition check_w (s : asr) : option asr :=
    let '(awq, new) := pop (aw_q s) in
    match w_pend s ++ new with
    | [] => Some (mk_asr (ar_q s) awq (w_q s) (r_pend s) [] (r_out s) (b_out s) (mem s))
    | r :: pend =>
        if rq_size r <=? length (w_q s) then
          match do_write (mem s) (w_q s) r with
          | None => None
          | Some (d, q) => Some (mk_asr (ar_q s) awq q (r_pend s) pend (r_out s) (b_out s ++ [rq_id r]) d)
          end
        else Some (mk_asr (ar_q s) awq (w_q s) (r_pend s) (r :: pend) (r_out s) (b_out s) (mem s))
    end.
  (** checkRequests, sim_ram.py:74-92, after the agents collected [i] *)
  Definition check (s : asr) (i : arr) : option asr :=
    let s0 := mk_asr (ar_q s ++ in_ar i) (aw_q s ++ in_aw i) (w_q s ++ in_w i) (r_pend s) (w_pend s) (r_out s) (b_out s) (mem s) in
    match check_r s0 with None => None | Some s1 => check_w s1 end.
  Fixpoint checks (s : asr) (is : list arr) : option asr :=
    match is with [] => Some s | i :: is' => match check s i with None => None | Some s' => checks s' is' end end.

  (** doRead at an unaligned address with allow_unaligned_addr=True, ram.py:100-131, where both words are python ints *)
  Definition read_unaligned (d : list (nat * cell)) (addr i : nat) : option N :=
    let offset := addr mod cs in
    match dict_get d (addr / cs + i), dict_get d (addr / cs + i + 1) with
    | Some (CInt d0), Some (CInt d1) =>
        Some (N.lor (N.land (N.shiftr d0 (N.of_nat (offset * 8))) (N.ones (N.of_nat (8 * cs))))
                    (N.land (N.shiftl d1 (N.of_nat ((cs - offset) * 8))) (N.ones (N.of_nat ((cs - offset) * 8)))))
    | _, _ => None
    end.
  (** one word of doWrite at an unaligned address with allow_unaligned_addr=True, ram.py:196-205, for fully valid data [v];
      << of a value of HBits drops the bits over its width *)
  Definition write_unaligned (d : list (nat * cell)) (v strb : N) (addr i : nat) : list (nat * cell) :=
    let offset := addr mod cs in
    let k := addr / cs + i in
    let full := N.ones (N.of_nat (8 * cs)) in
    let d0 := N.land (N.shiftl v (N.of_nat (offset * 8))) full in
    let strb0 := N.shiftl strb (N.of_nat offset) in
    let d1 := N.land (N.shiftr v (N.of_nat (offset * 8))) allMask in
    let strb1 := N.land (N.shiftr strb (N.of_nat offset)) (N.ones (N.of_nat cs)) in
    write_word (write_word d (mk_hv d0 full) strb0 k) (mk_hv d1 full) strb1 (k + 1).
End Asr.
