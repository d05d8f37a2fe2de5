(** Model of hwtLib/amba/axis_comp/frame_parser [Axi4S_frameParser] for a frame described by HStruct of scalar fields (nested structures are flattened), SHARED_READY = False, IS_BIGENDIAN = False. *)
From Verif Require Import Base.

Section Fp.
  (** DATA_WIDTH; fields: width in bits and whether the field has a name (a field without a name is padding), _parser.py:99-124; OVERFLOW_SUPPORT, UNDERFLOW_SUPPORT, :135-138 *)
  Record fld := mk_fld { f_w : nat; f_named : bool }.
  Variable W : nat.
  Variable fields : list fld.
  Variables OVF UNF : bool.

  (** Placement of the fields: one after another without gaps, split on boundaries of words, all words are present. This is hwt.hdl.frameTmpl.FrameTmpl.framesFromTransTmpl called by template_configured.py:48-56 (not part of this repository). *)
  Definition start (j : nat) : nat := list_sum (map f_w (firstn j fields)).
  Definition stop (j : nat) : nat := start j + match nth_error fields j with Some f => f_w f | None => 0 end.
  Definition total : nat := list_sum (map f_w fields).
  (** index of the first and of the last word with a part of the field *)
  Definition first_word (j : nat) : nat := start j / W.
  Definition last_word (j : nat) : nat := (stop j - 1) / W.
  (** bits of the part of field [j] in word [w], getBusWordBitRange, field_connector.py:45-48 *)
  Definition part (j w : nat) (data : list bool) : list bool :=
    let lo := Nat.max (start j) (w * W) in let hi := Nat.min (stop j) ((w + 1) * W) in
    firstn (hi - lo) (skipn (lo - w * W) data).
  (** maxWordIndex, word_index_max_val, _parser.py:243-250 *)
  Definition max_word : nat := (total - 1) / W.
  Definition max_val : nat := if OVF then max_word + 1 else max_word.
  Definition wi_w : nat := log2ceil (max_val + 1).
  Definition aligned : bool := total mod W =? 0.
  (** indexes of fields with a name whose last part is in word [w]: nodes of the word, field_connector.py:69-78, 214-293 *)
  Definition named (j : nat) : bool := match nth_error fields j with Some f => f_named f | None => false end.
  Definition nodes (w : nat) : list nat := filter (fun j => named j && (last_word j =? w)) (seq 0 (length fields)).

  (** registers: wordIndex, registers of parts (field, word), was_consumed of fields *)
  Record p_st := mk_p { p_wi : nat; p_parts : nat -> nat -> list bool; p_flags : list bool }.
  Definition p_cons (s : p_st) (j : nat) : bool := nth j (p_flags s) false.
  (** dataIn: valid, data, last; rd of fields *)
  Record p_in := mk_pi { i_v : bool; i_d : list bool; i_l : bool; i_frd : nat -> bool }.
  (** dataIn.ready; fields: vld, data; parsing_overflow, error_underflow (only if they exist) *)
  Record p_out := mk_po { o_r : bool; o_v : nat -> bool; o_d : nat -> list bool; o_ovf : bool; o_unf : bool }.
  (** reset; registers of parts have no reset value *)
  Definition p_init (r0 : nat -> nat -> list bool) : p_st := mk_p 0 r0 (repeat false (length fields)).

  (** acks of nodes: [_ack], out_containers.py:83-90, 108-110; there is a flag was_consumed only if the word has more nodes *)
  Definition flag (w : nat) : bool := 1 <? length (nodes w).
  Definition node_ack (s : p_st) (i : p_in) (w j : nat) : bool := i_frd i j || (flag w && p_cons s j).
  Definition others_ack (s : p_st) (i : p_in) (w j : nat) : bool := forallb (fun k => (k =? j) || node_ack s i w k) (nodes w).   (* getAckOfOthers, :191-193 *)
  Definition word_ack (s : p_st) (i : p_in) (w : nat) : bool := forallb (node_ack s i w) (nodes w).                              (* ListOfOutNodeInfos.ack, :198-202 *)

  (** next was_consumed of field [j], out_containers.py:92-101 *)
  Definition cons_next (s : p_st) (i : p_in) (ovf : bool) (j : nat) : bool :=
    if named j && (last_word j =? p_wi s) && flag (p_wi s) && negb ovf && i_v i then
      (if p_cons s j && others_ack s i (p_wi s) j then false
       else if negb (others_ack s i (p_wi s) j) && i_frd i j then true else p_cons s j)
    else p_cons s j.
  (** parser_fsm, _parser.py:241-309 *)
  Definition p_step (s : p_st) (i : p_in) : p_st * p_out :=
    let wi := p_wi s in
    let ovf := OVF && (if aligned then wi =? max_val else max_word <=? wi) in                   (* parsing_overflow, :294-300; also of a single word struct *)
    let acks := (wi <=? max_word) && word_ack s i wi in                                          (* WordFactory.ack, word_factory.py:27-41 *)
    let ready := acks || ovf in                                                                  (* :262-274 *)
    let data_ack := i_v i && ready in
    let last := if OVF || UNF then i_l i else wi =? max_word in                                  (* :281-292 *)
    let wi' := if max_val =? 0 then 0
               else if data_ack then (if last then 0 else if OVF && (wi =? max_val) then wi else winc wi_w wi) else wi in   (* :302-308 *)
    let here j := named j && (last_word j =? wi) in
    let parts' j w := if named j && i_v i && (w =? wi) && (first_word j <=? w) && (w <? last_word j) then part j w (i_d i) else p_parts s j w in   (* field_connector.py:283-293 *)
    (mk_p wi' parts' (map (cons_next s i ovf) (seq 0 (length fields))),
     mk_po ready (fun j => here j && negb (flag wi && p_cons s j) && negb ovf && i_v i)          (* out_containers.py:104-115 *)
           (fun j => flat_map (p_parts s j) (seq (first_word j) (last_word j - first_word j)) ++ part j (last_word j) (i_d i))   (* field_connector.py:268-281 *)
           ovf (UNF && (data_ack && i_l i && (if aligned then negb (wi =? max_word) else wi <? max_word)))).      (* :283-286 *)
End Fp.
