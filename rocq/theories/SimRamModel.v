(** Model of hwtLib/abstract/sim_ram.py [SimRam] (without a parent). *)
From Verif Require Import Base.

(** a memory cell: None, a python int, or a BitsVal with val and vld_mask *)
Inductive cell := CNone | CInt (v : N) | CVal (v m : N).
(** self.data (a dict, keys are cell indexes) and self.prevAllocatedAddrEnd, sim_ram.py:53-59 *)
Record sim_ram := mk_sr { sr_data : list (nat * cell); sr_prev : nat }.
Definition sr_init : sim_ram := mk_sr [] 0.

Definition dict_get (d : list (nat * cell)) (k : nat) : option cell :=
  match find (fun e => fst e =? k) d with Some e => Some (snd e) | None => None end.

Section SimRam.
  Variable cs : nat.  (* cellSize, bytes *)

  (** [addr] of malloc/calloc, sim_ram.py:71-77, 108-114; keepOut=None is 0 *)
  Definition next_addr (s : sim_ram) (keepOut : nat) : nat :=
    match sr_data s with
    | [] => sr_prev s
    | _ => (fold_right Nat.max 0 (map fst (sr_data s)) + 1) * cs
    end + keepOut.
  (** the loops at sim_ram.py:85-92, 129-139; [None] = AllocationError; [vals] are the values of the cells *)
  Fixpoint reserve (d : list (nat * cell)) (indx : nat) (vals : list cell) : option (list (nat * cell)) :=
    match vals with
    | [] => Some d
    | v :: vals' => match dict_get d indx with
                    | Some _ => None
                    | None => reserve ((indx, v) :: d) (S indx) vals'
                    end
    end.
  (** malloc, sim_ram.py:61-95 (the NotImplementedError at :81 is constructed, not raised) *)
  Definition malloc (s : sim_ram) (size keepOut : nat) : option (sim_ram * nat) :=
    let addr := next_addr s keepOut in
    match reserve (sr_data s) (addr / cs) (repeat CNone (size / cs)) with
    | None => None
    | Some d => Some (mk_sr d addr, addr)
    end.

  (** int_list_to_int(items, item_width) *)
  Fixpoint int_list_to_int (l : list N) (width : nat) : N :=
    match l with [] => 0%N | v :: l' => N.lor v (N.shiftl (int_list_to_int l' width) (N.of_nat width)) end.
  (** grouper(n, values, padvalue=0) and reshapedInitItems, sim_ram.py:19-36; [fuel] >= length of [l] *)
  Fixpoint reshaped (fuel itemsInCell width : nat) (l : list N) : list N :=
    match fuel, l with
    | S fuel', _ :: _ => int_list_to_int (firstn itemsInCell (l ++ repeat 0%N itemsInCell)) width
                         :: reshaped fuel' itemsInCell width (skipn itemsInCell l)
    | _, _ => []
    end.
  (** calloc, sim_ram.py:97-145, num items of size bytes; [None] = exception.  Only at an address aligned to a cell: at
      another one initValues (even None) is passed to shiftIntArray of hwt, which is not modelled and gives [None] here.
      ceil of the float quotient is taken as exact. *)
  Definition calloc (s : sim_ram) (num size keepOut : nat) (initValues : option (list N)) : option (sim_ram * nat) :=
    let addr := next_addr s keepOut in
    let indx := addr / cs in
    let shift := addr mod cs in
    let wordCnt := (num * size + cs - 1) / cs in
    let vals := match initValues with
                | None => Some (repeat (CInt 0) wordCnt)
                | Some vs =>
                    let l := if size =? cs then Some vs
                             else if (size <? cs) && (cs mod size =? 0) then Some (reshaped (length vs) (cs / size) (size * 8) vs)
                             else None in
                    match l with
                    | Some l => if length l =? wordCnt then Some (map CInt l) else None
                    | None => None
                    end
                end in
    if shift =? 0 then
      match vals with
      | None => None
      | Some vals =>
          match reserve (sr_data s) indx vals with
          | None => None
          | Some d => Some (mk_sr d ((indx + wordCnt) * cs), addr)
          end
      end
    else None.

  (** get_bit_range(v, offset, width) *)
  Definition get_bit_range (v : N) (offset width : nat) : N := N.land (N.shiftr v (N.of_nat offset)) (N.ones (N.of_nat width)).
  (** getBits, sim_ram.py:165-206: (val, vld_mask); every iteration consumes at least one bit, fuel = end - start *)
  Fixpoint get_bits_loop (fuel : nat) (d : list (nat * cell)) (start end_ inFieldOffset : nat) (val vld : N) : N * N :=
    match fuel with
    | 0 => (val, vld)
    | S fuel' =>
        if start =? end_ then (val, vld)
        else
          let wordWidth := cs * 8 in
          let dataWordIndex := start / wordWidth in
          let endOfWord := (dataWordIndex + 1) * wordWidth in
          let width := Nat.min end_ endOfWord - start in
          let offset := start mod wordWidth in
          let '(v, m) := match dict_get d dataWordIndex with
                         | None | Some CNone => (0%N, 0%N)
                         | Some (CInt v) => (get_bit_range v offset width, N.ones (N.of_nat wordWidth))
                         | Some (CVal v m) => (get_bit_range v offset width, get_bit_range m offset width)
                         end in
          let mk := N.ones (N.of_nat width) in
          get_bits_loop fuel' d (start + width) end_ (inFieldOffset + width)
            (N.lor val (N.shiftl (N.land v mk) (N.of_nat inFieldOffset)))
            (N.lor vld (N.shiftl (N.land m mk) (N.of_nat inFieldOffset)))
    end.
  Definition get_bits (s : sim_ram) (start end_ : nat) : N * N := get_bits_loop (end_ - start) (sr_data s) start end_ 0 0 0.

  (** getArray with item_size <> cellSize or an unaligned address, sim_ram.py:147-153, 208-225: one getBits per item *)
  Definition get_array (s : sim_ram) (addr item_size item_cnt : nat) : list (N * N) :=
    map (fun i => get_bits s (addr * 8 + i * (item_size * 8)) (addr * 8 + i * (item_size * 8) + item_size * 8)) (seq 0 item_cnt).
  (** getArray of whole cells, sim_ram.py:154-163 *)
  Definition get_cells (s : sim_ram) (addr item_cnt : nat) : list (option cell) :=
    map (dict_get (sr_data s)) (seq (addr / cs) item_cnt).

  (** a history of allocations and the returned regions (address, size in bytes) *)
  Inductive alloc_op := OMalloc (size keepOut : nat) | OCalloc (num size keepOut : nat) (init : option (list N)).
  Definition do_alloc (s : sim_ram) (o : alloc_op) : option (sim_ram * (nat * nat)) :=
    match o with
    | OMalloc size k => match malloc s size k with Some (s', a) => Some (s', (a, size)) | None => None end
    | OCalloc num size k i => match calloc s num size k i with Some (s', a) => Some (s', (a, num * size)) | None => None end
    end.
  Fixpoint do_allocs (s : sim_ram) (os : list alloc_op) : option (sim_ram * list (nat * nat)) :=
    match os with
    | [] => Some (s, [])
    | o :: os' => match do_alloc s o with
                  | None => None
                  | Some (s', r) => match do_allocs s' os' with Some (s'', rs) => Some (s'', r :: rs) | None => None end
                  end
    end.
End SimRam.
