(** Model of hwtLib/amba/axis_comp/strformat.py [Axi4S_strFormat] with BinToBcd from [BcdModel].
    Fields of data_in are numbered; a field is a vector or a stream of bytes.  Characters are their codes. *)
From Verif Require Import Base BcdModel.

(** formats of numbers, in the order of their letters: 'X', 'b', 'd', 'o', 'x' *)
Inductive sf_tbl := TX | Tb | Td | To | Tx.
Definition tbl_eqb (a b : sf_tbl) : bool :=
  match a, b with TX, TX | Tb, Tb | Td, Td | To, To | Tx, Tx => true | _, _ => false end.
(** BITS_PER_CHAR, strformat.py:50-56 *)
Definition tbl_bits (t : sf_tbl) : nat := match t with TX => 4 | Tb => 1 | Td => 4 | To => 3 | Tx => 4 end.
(** translation tables, :149-159 *)
Definition codes (from n : nat) : list nat := seq from n.
Definition tbl_chars (t : sf_tbl) : list nat :=
  match t with
  | TX => codes 48 10 ++ codes 65 6
  | Tb => codes 48 2
  | Td => codes 48 10
  | To => codes 48 8
  | Tx => codes 48 10 ++ codes 97 6
  end.
(** an item of FORMAT: bytes of a string, a number from a field, a string from a field *)
Inductive sf_item := SStr (b : list nat) | SNum (t : sf_tbl) (f digits : nat) | SIn (f : nat).

(** pins driven by neighbours: data_out.ready, the vectors and the streams of data_in *)
Record sf_in := mk_sfi { si_ready : bool; si_num : nat -> N; si_valid : nat -> bool; si_data : nat -> nat; si_last : nat -> bool }.
(** data_out and ready of the streams; [None]: undefined data *)
Record sf_out := mk_sfo { so_valid : bool; so_data : option nat; so_last : bool; so_ready : nat -> bool }.
(** main_st, char_i, bin_to_bcd *)
Record sf_st := mk_sfs { sf_main : nat; sf_char : nat; sf_bcd : b2b }.

Section Sf.
  (** FORMAT after removal of empty strings, widths of the vectors, INPUT_WIDTH of bin_to_bcd *)
  Variables (items : list sf_item) (fw : nat -> nat) (W : nat).

  (** build_string_rom, :127-186 *)
  Definition str_bytes (it : sf_item) : list nat := match it with SStr b => b | _ => [] end.
  Definition strs (l : list sf_item) : list nat := flat_map str_bytes l.
  Definition uses (t : sf_tbl) : bool := existsb (fun it => match it with SNum t' _ _ => tbl_eqb t t' | _ => false end) items.
  Definition tables (ts : list sf_tbl) : list nat := flat_map (fun t => if uses t then tbl_chars t else []) ts.
  Definition rom : list nat := strs items ++ tables [TX; Tb; Td; To; Tx].
  Definition str_off (i : nat) : nat := length (strs (firstn i items)).
  Definition before (t : sf_tbl) : list sf_tbl :=
    match t with TX => [] | Tb => [TX] | Td => [TX; Tb] | To => [TX; Tb; Td] | Tx => [TX; Tb; Td; To] end.
  Definition tbl_off (t : sf_tbl) : nat := length (strs items) + length (tables (before t)).
  (** max_chars_per_format, :137-166; an item with a format which was seen before is skipped by continue, but for 'd' *)
  Fixpoint max_chars (seen : list sf_tbl) (l : list sf_item) : nat :=
    match l with
    | [] => 0
    | SStr b :: l' => Nat.max (length b) (max_chars seen l')
    | SNum t _ d :: l' =>
        if negb (tbl_eqb t Td) && existsb (tbl_eqb t) seen then max_chars seen l' else Nat.max d (max_chars (t :: seen) l')
    | SIn _ :: l' => max_chars seen l'
    end.
  Definition char_w : nat := log2ceil (max_chars [] items).
  Definition idx_w : nat := log2ceil (length rom).
  (** a read of string_rom *)
  Definition rom_at (i : nat) : option nat := nth_error rom (wrap idx_w i).

  (** create_char_mux, :188-210; [None]: default branch *)
  Definition num_digit (bits w : nat) (v : N) (digits c : nat) : option nat :=
    if c <? digits then
      let i := digits - c - 1 in
      Some (if i * bits <? w
            then N.to_nat (N.shiftr (v mod 2 ^ N.of_nat (Nat.min ((i + 1) * bits) w)) (N.of_nat (i * bits)))
            else 0)
    else None.
  (** the same for the digits of bin_to_bcd *)
  Definition dec_digit (ds : list N) (digits c : nat) : option nat :=
    if c <? digits then Some (N.to_nat (nth (digits - c - 1) ds 0%N)) else None.

  Definition b_vld (b : b2b) : bool := match b_st b with BFin => true | _ => false end.
  (** connect_single_format_group for the item main_st, :214-288: in_vld, in_last, data *)
  Definition sf_group (s : sf_st) (i : sf_in) : bool * bool * option nat :=
    let c := sf_char s in
    match nth_error items (sf_main s) with
    | Some (SStr b) => (true, c =? length b - 1, rom_at (str_off (sf_main s) + c))
    | Some (SNum t f d) =>
        (if tbl_eqb t Td then b_vld (sf_bcd s) else true, c =? d - 1,
         match (if tbl_eqb t Td then dec_digit (b_bcd (sf_bcd s)) d c else num_digit (tbl_bits t) (fw f) (si_num i f) d c) with
         | Some g => rom_at (tbl_off t + g)
         | None => None
         end)
    | Some (SIn f) => (si_valid i f, si_last i f, Some (si_data i f))
    | None => (false, false, None)
    end.
  (** din and dout.rd of bin_to_bcd, :253, :355-364 *)
  Definition sf_bcd_in (s : sf_st) (i : sf_in) : bcd_in N :=
    match nth_error items (sf_main s) with
    | Some (SNum Td f d) => mk_bi (sf_char s =? 0) (si_num i f) (si_ready i && (sf_char s =? d - 1))
    | _ => mk_bi false 0%N false
    end.
  (** :306-352.  With a single item there is no main_st, this is the same as main_st which is always 0. *)
  Definition sf_next (s : sf_st) (i : sf_in) : sf_st :=
    let '(v, l, _) := sf_group s i in
    mk_sfs (if si_ready i && v && l then if sf_main s =? length items - 1 then 0 else sf_main s + 1 else sf_main s)
           (if si_ready i && v then if l then 0 else winc char_w (sf_char s) else sf_char s)
           (fst (b2b_step W (sf_bcd s) (sf_bcd_in s i))).
  Definition sf_o (s : sf_st) (i : sf_in) : sf_out :=
    let '(v, l, d) := sf_group s i in
    mk_sfo v d (l && (sf_main s =? length items - 1))
      (fun f => si_ready i && match nth_error items (sf_main s) with Some (SIn g) => f =? g | _ => false end).
  Definition sf_step (s : sf_st) (i : sf_in) : sf_st * sf_out := (sf_next s i, sf_o s i).
  (** [D] = DECIMAL_DIGITS of bin_to_bcd *)
  Definition sf_init (D : nat) (bin0 : N) : sf_st := mk_sfs 0 0 (b2b_init D bin0).

  (** What is refused if it does not hold: constants compared with char_i have to fit into it; an interface has one consumer.
      Items of size 0 and vectors wider than bin_to_bcd are refused too. *)
  Definition item_elaborates (it : sf_item) : Prop :=
    match it with
    | SStr b => 1 <= length b <= 2 ^ char_w
    | SNum t f d => 1 <= d <= 2 ^ char_w /\ (t = Td -> fw f <= W)
    | SIn _ => True
    end.
  Definition in_fields : list nat := flat_map (fun it => match it with SIn f => [f] | _ => [] end) items.
  Definition dec_items : list nat := flat_map (fun it => match it with SNum Td f _ => [f] | _ => [] end) items.
  Definition sf_elaborates : Prop := items <> [] /\ Forall item_elaborates items /\ NoDup in_fields /\ length dec_items <= 1.
End Sf.
