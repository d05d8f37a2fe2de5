(** An address space with fields (registers) and memories, and what reads and writes of it mean. *)
From Verif Require Import Base EpModel.

(** what hwt makes from a template of an address space *)
Section Cfg.
  Variable c : epcfg.
  Notation DW := (e_wu c * e_step c).
  (** the bit address [p] is in the field [f] *)
  Definition in_field (f p : nat) : Prop := e_base c f <= p < e_base c f + e_width c f.
  (** the parts of a word follow each other from bit [s] to bit [e], a part with a field is a piece of it, padding has no bit of a field *)
  Fixpoint parts_ok (s e : nat) (l : list part) : Prop :=
    match l with
    | [] => s = e
    | p :: l' => pt_s p = s /\ s < pt_e p /\ parts_ok (pt_e p) e l' /\
        match pt_f p with
        | Some f => f < e_nf c /\ e_base c f <= s /\ pt_e p <= e_base c f + e_width c f
        | None => forall f q, f < e_nf c -> s <= q < pt_e p -> ~ in_field f q
        end
    end.
  Record cfg_ok : Prop := {
    ok_step : exists k, e_step c = 2 ^ k;
    ok_wu : exists k, e_wu c = 2 ^ k;
    (** fields do not overlap *)
    ok_fields : forall f g p, f < e_nf c -> g < e_nf c -> in_field f p -> in_field g p -> f = g;
    (** the words are exactly the words with a field *)
    ok_parts : forall w l, In (w, l) (e_words c) -> parts_ok (w * DW) ((w + 1) * DW) l;
    ok_words : NoDup (map fst (e_words c));
    ok_cover : forall f p, f < e_nf c -> in_field f p -> exists l, In (p / DW, l) (e_words c);
    ok_used : forall w l, In (w, l) (e_words c) -> exists f p, f < e_nf c /\ in_field f p /\ p / DW = w;
    (** a writable field is not empty and is in one word as one part (anything else cannot be built) *)
    ok_wr : forall f, f < e_nf c -> e_wr c f = true -> 0 < e_width c f;
    ok_whole : forall f w l p, e_wr c f = true -> In (w, l) (e_words c) -> In p l -> pt_f p = Some f -> pt_s p = e_base c f /\ pt_e p = e_base c f + e_width c f;
    (** memories are in the address space, aligned to words, and do not overlap with anything *)
    ok_mem : forall b n, In (b, n) (e_brams c) -> 0 < n /\ b mod e_wu c = 0 /\ b + n * e_wu c <= 2 ^ e_aw c /\
      forall f p, f < e_nf c -> in_field f p -> p < b * e_step c \/ (b + n * e_wu c) * e_step c <= p;
    ok_mems : forall j k a, j < length (e_brams c) -> k < length (e_brams c) ->
      let '(b, n) := nth j (e_brams c) (0, 0) in let '(b', n') := nth k (e_brams c) (0, 0) in
      b <= a < b + n * e_wu c -> b' <= a < b' + n' * e_wu c -> j = k }.
End Cfg.

Section Space.
  Variable c : epcfg.
  Notation DW := (e_wu c * e_step c).
  (** the values of the fields have their widths *)
  Definition din_ok (din : nat -> bits) : Prop := forall f, f < e_nf c -> length (din f) = e_width c f.
  Definition in_field_b (f p : nat) : bool := (e_base c f <=? p) && (p <? e_base c f + e_width c f).
  (** value of the bit with address [p] *)
  Definition bit_at (din : nat -> bits) (p : nat) : option bool :=
    match find (fun f => in_field_b f p) (seq 0 (e_nf c)) with Some f => Some (nth (p - e_base c f) (din f) false) | None => None end.
  (** is there a field in the bus word at the address [a] *)
  Definition reg_word (a : nat) : bool :=
    (a mod e_wu c =? 0) && existsb (fun f => existsb (fun p => in_field_b f p) (seq (a * e_step c) DW)) (seq 0 (e_nf c)).
  (** the memory and the item with the address [a] *)
  Fixpoint find_mem (l : list (nat * nat)) (k a : nat) : option (nat * nat) :=
    match l with
    | [] => None
    | (b, n) :: l' => if (b <=? a) && (a <? b + n * e_wu c) then Some (k, (a - b) / e_wu c) else find_mem l' (S k) a
    end.
  Definition mem_at (a : nat) : option (nat * nat) := find_mem (e_brams c) 0 a.
  (** the word which a read of [a] has to return; [None]: nothing is there, any value *)
  Definition rd_value (m : nat -> nat -> bits) (din : nat -> bits) (a : nat) : option xbits :=
    if reg_word a then Some (map (bit_at din) (seq (a * e_step c) DW))
    else match mem_at a with Some (k, x) => Some (map Some (m k x)) | None => None end.
  Definition agrees (want : option xbits) (got : xbits) : Prop := match want with Some v => got = v | None => True end.
  (** memories after a write of [d] to [a] *)
  Definition wr_mem (m : nat -> nat -> bits) (a : nat) (d : bits) : nat -> nat -> bits :=
    match mem_at a with Some (k, x) => fun j y => if (j =? k) && (y =? x) then d else m j y | None => m end.
  (** what the field [f] gets by a write of [d] to [a] *)
  Definition wr_field (a : nat) (d : bits) (f : nat) : option bits :=
    if e_wr c f && (e_base c f / DW * e_wu c =? a) then Some (firstn (e_width c f) (skipn (e_base c f mod DW) d)) else None.
  (** exactly the fields at [a] are written / nothing is written *)
  Definition fields_get (w : option (nat * bits)) (dout : nat -> option bits) : Prop :=
    forall f, f < e_nf c -> dout f = match w with Some (a, d) => wr_field a d f | None => None end.
  Definition in_space (a : nat) : bool := (e_min c <=? a) && (a <? e_max c).

  (** * AxiLite: one write and one read at once *)
  Notation lc := (al_in * al_out)%type.
  (** contents of the memories; the address of the write without data; the address of the write without response; the address of the read without response
      with the value of its memory item *)
  Record lsp := mk_lsp { ls_m : nat -> nat -> bits; ls_a : option nat; ls_b : option nat; ls_r : option (nat * option xbits) }.
  Definition l_aw (x : lc) : bool := li_awv (fst x) && lo_aw (snd x).
  Definition l_w (x : lc) : bool := li_wv (fst x) && lo_w (snd x).
  Definition l_ar (x : lc) : bool := li_arv (fst x) && lo_ar (snd x).
  (** [mr]: are the values of memory items followed *)
  Definition l_next (mr : bool) (p : lsp) (x : lc) : lsp :=
    mk_lsp (match ls_a p with Some a => if l_w x then wr_mem (ls_m p) a (li_w (fst x)) else ls_m p | None => ls_m p end)
           (if l_aw x then Some (li_aw (fst x)) else if l_w x then None else ls_a p)
           (if l_w x then ls_a p else if li_b (fst x) then match lo_b (snd x) with Some _ => None | None => ls_b p end else ls_b p)
           (if l_ar x then Some (li_ar (fst x), match mem_at (li_ar (fst x)) with Some (k, y) => if mr then Some (map Some (ls_m p k y)) else None | None => None end)
            else if li_r (fst x) then match lo_r (snd x) with Some _ => None | None => ls_r p end else ls_r p).
  Definition l_cycle (p : lsp) (x : lc) : Prop :=
    (** ready and valid *)
    lo_aw (snd x) = negb (match ls_a p with Some _ => true | None => false end) && negb (match ls_b p with Some _ => true | None => false end) /\
    lo_w (snd x) = (match ls_a p with Some _ => true | None => false end) /\
    lo_ar (snd x) = negb (match ls_r p with Some _ => true | None => false end) && negb (l_w x) /\
    (** responses *)
    lo_b (snd x) = (match ls_b p with Some a => Some (in_space a) | None => None end) /\
    match lo_r (snd x) with
    | Some (ok, d) => exists a e, ls_r p = Some (a, e) /\ ok = in_space a /\
        agrees (if reg_word a then Some (map (bit_at (li_din (fst x))) (seq (a * e_step c) DW)) else e) d
    | None => True
    end /\
    (** registers *)
    fields_get (match ls_a p with Some a => if l_w x then Some (a, li_w (fst x)) else None | None => None end) (lo_dout (snd x)).
  (** the read has to be answered in the next cycle: an accepted read of anything else than a memory, an answer which was not taken,
      and a read of a memory after the first cycle without written data *)
  Definition l_must (p : lsp) (x : lc) : bool :=
    match ls_r p with
    | Some _ => match lo_r (snd x) with Some _ => negb (li_r (fst x)) | None => negb (l_w x) end
    | None => l_ar x && match mem_at (li_ar (fst x)) with Some _ => false | None => true end
    end.
  Fixpoint l_law (mr : bool) (p : lsp) (t : list lc) : Prop :=
    match t with
    | [] => True
    | x :: t' => l_cycle p x /\ (l_must p x = true -> match t' with y :: _ => lo_r (snd y) <> None | [] => True end) /\ l_law mr (l_next mr p x) t'
    end.
  Definition l_start (m : nat -> nat -> bits) : lsp := mk_lsp m None None None.
  (** after an accepted read of a memory, in the first cycle no data is written and in the second cycle the read data is taken *)
  Definition l_mem_read (x : lc) : bool := l_ar x && match mem_at (li_ar (fst x)) with Some _ => true | None => false end.
  Fixpoint l_calm (t : list lc) : Prop :=
    match t with
    | [] => True
    | x :: t' => (l_mem_read x = true -> match t' with y :: t'' => l_w y = false /\ match t'' with z :: _ => li_r (fst z) = true | [] => True end | [] => True end) /\ l_calm t'
    end.

  (** * the buses with the data in the next cycle: contents of the memories, the read (the address and the value of registers and memories in that cycle), the write *)
  (** Mi32 *)
  Notation mc := (me_in * me_out)%type.
  Fixpoint me_law (m : nat -> nat -> bits) (last : option (nat * option xbits)) (t : list mc) : Prop :=
    match t with
    | [] => True
    | x :: t' =>
        mo_ardy (snd x) = true /\
        match last, mo_drd (snd x) with
        | Some (a, want), Some d => in_space a = true /\ agrees want d
        | Some (a, _), None => in_space a = false
        | None, d => d = None
        end /\
        fields_get (if mi_wr (fst x) then Some (mi_addr (fst x), mi_dwr (fst x)) else None) (mo_dout (snd x)) /\
        me_law (if mi_wr (fst x) then wr_mem m (mi_addr (fst x)) (mi_dwr (fst x)) else m)
               (if mi_rd (fst x) then Some (mi_addr (fst x), rd_value m (mi_din (fst x)) (mi_addr (fst x))) else None) t'
    end.
  (** BramPort: the read of a cycle with en *)
  Notation bc := (be_in * be_out)%type.
  Fixpoint be_law (m : nat -> nat -> bits) (last : option xbits) (t : list bc) : Prop :=
    match t with
    | [] => True
    | x :: t' =>
        agrees last (bo_dout (snd x)) /\
        fields_get (if bi_en (fst x) && bi_we (fst x) then Some (bi_addr (fst x), bi_d (fst x)) else None) (bo_f (snd x)) /\
        be_law (if bi_en (fst x) && bi_we (fst x) then wr_mem m (bi_addr (fst x)) (bi_d (fst x)) else m)
               (if bi_en (fst x) then rd_value m (bi_din (fst x)) (bi_addr (fst x)) else None) t'
    end.
  (** Avalon: registers are read in the cycle of the answer; [last]: the address of the last read and the value of the memory item; the address of the last write *)
  Notation vc := (av_i * av_o)%type.
  Fixpoint av_law (m : nat -> nat -> bits) (last : option (nat * option xbits)) (lastw : option nat) (t : list vc) : Prop :=
    match t with
    | [] => True
    | x :: t' =>
        vo_wait (snd x) = false /\
        match last, vo_rd (snd x) with
        | Some (a, e), Some d => vo_ok (snd x) = in_space a /\ agrees (if reg_word a then Some (map (bit_at (vi_din (fst x))) (seq (a * e_step c) DW)) else e) d
        | Some _, None => False
        | None, d => d = None
        end /\
        match lastw with Some a => vo_wrv (snd x) = true /\ vo_ok (snd x) = in_space a | None => vo_wrv (snd x) = false end /\
        fields_get (if vi_wr (fst x) then Some (vi_addr (fst x), vi_d (fst x)) else None) (vo_dout (snd x)) /\
        av_law (if vi_wr (fst x) then wr_mem m (vi_addr (fst x)) (vi_d (fst x)) else m)
               (if vi_rd (fst x) then Some (vi_addr (fst x), match mem_at (vi_addr (fst x)) with Some (k, y) => Some (map Some (m k y)) | None => None end) else None)
               (if vi_wr (fst x) then Some (vi_addr (fst x)) else None) t'
    end.
  (** Ipif: a request is kept until the cycle of its acknowledge *)
  Notation pc := (ip_in * ip_out)%type.
  Fixpoint ip_kept (t : list pc) : Prop :=
    match t with
    | [] => True
    | x :: t' =>
        (pi_cs (fst x) = true -> po_rdack (snd x) || po_wrack (snd x) = false ->
         match t' with y :: _ => pi_cs (fst y) = true /\ pi_rnw (fst y) = pi_rnw (fst x) /\ pi_addr (fst y) = pi_addr (fst x) /\ pi_d (fst y) = pi_d (fst x) | [] => True end) /\
        ip_kept t'
    end.
  (** [wait]: a request is in its second cycle; it is acknowledged there, if it is in the address space *)
  Fixpoint ip_law (m : nat -> nat -> bits) (wait : bool) (t : list pc) : Prop :=
    match t with
    | [] => True
    | x :: t' =>
        let i := fst x in let o := snd x in
        let wr := wait && negb (pi_rnw i) in
        po_rdack o = wait && pi_rnw i /\ po_wrack o = wr /\
        (po_rdack o = true -> agrees (rd_value m (pi_din i) (pi_addr i)) (po_d o)) /\
        fields_get (if wr then Some (pi_addr i, pi_d i) else None) (po_dout o) /\
        ip_law (if wr then wr_mem m (pi_addr i) (pi_d i) else m) (negb wait && pi_cs i && in_space (pi_addr i)) t'
    end.
End Space.
