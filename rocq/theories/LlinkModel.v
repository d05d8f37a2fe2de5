(** Model of hwtLib/xilinx/locallink/axis_conv.py [Axi4SToLocalLink], [LocalLinkToAxi4S] and of widths of
    hwtLib/xilinx/locallink/hIOLocallink.py [LocalLink]. An undefined value of strb or rem is [None]. *)
From Verif Require Import Base.

Section Llink.
  Context {D : Type} (B : nat).  (* DATA_WIDTH // 8 *)
  (** a word of Axi4Stream: data, strb (byte 0 first), last, user[0] (start of packet), user[1] (end of packet) *)
  Record axi_word := mk_a { a_data : D; a_strb : option (list bool); a_last : bool; a_sop : bool; a_eop : bool }.
  (** a word of LocalLink: data, rem, sof_n, eof_n, sop_n, eop_n; hIOLocallink.py:21-29 *)
  Record ll_word := mk_l { l_data : D; l_rem : option nat; l_sof_n : bool; l_eof_n : bool; l_sop_n : bool; l_eop_n : bool }.
  (** hIOLocallink.py:23 *)
  Definition REM_BITS : nat := log2ceil B.
  (** mask(n) as bits *)
  Definition mask (n : nat) : list bool := map (fun k => k <? n) (seq 0 B).
  Fixpoint same (a b : list bool) : bool :=
    match a, b with [], [] => true | x :: a', y :: b' => Bool.eqb x y && same a' b' | _, _ => false end.
  (** strbToRem, axis_conv.py:15-19, as the cases of Switch(In.strb), :93-101 *)
  Definition rem_of (s : list bool) : option nat := find (fun i => same s (mask (i + 1))) (seq 0 B).
  (** ... and of Switch(In.rem), :152-156 *)
  Definition strb_of (r : nat) : option (list bool) := if r <? B then Some (mask (r + 1)) else None.

  (** Axi4SToLocalLink, :56-106; [sof] is lastSeenLast *)
  Definition to_ll (sof : bool) (w : axi_word) : ll_word :=
    mk_l (a_data w)
         (if a_last w || a_eop w then match a_strb w with Some s => rem_of s | None => None end else Some (2 ^ REM_BITS - 1))
         (negb sof) (negb (a_last w)) (if sof then false else negb (a_sop w)) (if a_last w then false else negb (a_eop w)).
  (** LocalLinkToAxi4S, :139-156 *)
  Definition to_axi (w : ll_word) : axi_word :=
    mk_a (l_data w) (match l_rem w with Some r => strb_of r | None => None end) (negb (l_eof_n w)) (negb (l_sop_n w)) (negb (l_eop_n w)).

  (** Axi4SToLocalLink: inputs valid, word, dst_rdy_n; outputs src_rdy_n, word, ready *)
  Definition a2l_step (sof : bool) (i : bool * axi_word * bool) : bool * (bool * ll_word * bool) :=
    let '(valid, w, dst_rdy_n) := i in
    let outRd := negb dst_rdy_n in
    (if valid && outRd then a_last w else sof, (negb valid, to_ll sof w, outRd)).
  Definition a2l_init : bool := true.
  (** LocalLinkToAxi4S: inputs src_rdy_n, word, ready; outputs valid, word, dst_rdy_n; no state *)
  Definition l2a (i : bool * ll_word * bool) : bool * axi_word * bool :=
    let '(src_rdy_n, w, ready) := i in (negb src_rdy_n, to_axi w, negb ready).

  (** both converters behind each other: inputs valid, word, ready of the last consumer; outputs valid, word, ready to the producer *)
  Definition axi_ll_axi (sof : bool) (i : bool * axi_word * bool) : bool * (bool * axi_word * bool) :=
    let '(valid, w, ready) := i in
    let dst_rdy_n := snd (l2a (negb valid, to_ll sof w, ready)) in
    let '(sof', (src_rdy_n, lw, rd)) := a2l_step sof (valid, w, dst_rdy_n) in
    let '(v, w', _) := l2a (src_rdy_n, lw, ready) in (sof', (v, w', rd)).
  (** inputs src_rdy_n, word, dst_rdy_n of the last consumer; outputs src_rdy_n, word, dst_rdy_n to the producer *)
  Definition ll_axi_ll (sof : bool) (i : bool * ll_word * bool) : bool * (bool * ll_word * bool) :=
    let '(src_rdy_n, w, dst_rdy_n) := i in
    let '(v, w1, dr) := l2a (src_rdy_n, w, negb dst_rdy_n) in
    let '(sof', (sr, w2, _)) := a2l_step sof (v, w1, dst_rdy_n) in (sof', (sr, w2, dr)).
End Llink.
Arguments axi_word : clear implicits. Arguments ll_word : clear implicits.
