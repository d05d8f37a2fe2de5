(** Model of hwtLib/amba/axis_comp/frame_deparser [Axi4S_frameDeparser] for a frame described by HStruct of scalar fields (nested structures are flattened), IS_BIGENDIAN = False. *)
From Verif Require Import Base FpModel.

Section Fd.
  (** DATA_WIDTH and fields as in the parser; the placement of fields to words is the same (template_configured.py:48-56) *)
  Variable W : nat.
  Variable fields : list fld.

  (** register: wordCntr_inversed, _deparser.py:343-346 *)
  Definition d_st := nat.
  (** dataIn: vld and data of fields; dataOut.ready; values of undefined bits (padding), :232 *)
  Record d_in := mk_di { d_v : nat -> bool; d_d : nat -> list bool; d_r : bool; d_x : list bool }.
  (** rd of fields; dataOut: valid, data, last, strb as a bit mask of the bits of the word *)
  Record d_out := mk_do { q_rd : nat -> bool; q_v : bool; q_d : list bool; q_l : bool; q_s : list bool }.
  Definition d_init : d_st := max_word W fields.

  (** ports of word [w]: fields with a part in the word and fields whose last part is there, connectPartsOfWord, :229-241 *)
  Definition in_ports (w : nat) : list nat := filter (fun j => named fields j && (first_word W fields j <=? w) && (w <=? last_word W fields j)) (seq 0 (length fields)).
  Definition last_ports (w : nat) : list nat := nodes W fields w.
  (** the field which contains bit [p] of the frame *)
  Definition field_at (p : nat) : option nat := find (fun j => (start fields j <=? p) && (p <? stop fields j)) (seq 0 (length fields)).
  (** data of word [w], :229-236: bit b is bit p of the frame; and its strobe, :242-243: 0 for padding (also behind the structure) *)
  Definition bit_of (i : d_in) (w b : nat) : bool :=
    match field_at (w * W + b) with
    | Some j => if named fields j then nth (w * W + b - start fields j) (d_d i j) false else nth b (d_x i) false
    | None => nth b (d_x i) false
    end.
  Definition strb_of (w b : nat) : bool := match field_at (w * W + b) with Some j => named fields j | None => false end.

  (** _create_frame_build_logic, :333-472 *)
  Definition d_step (s : d_st) (i : d_in) : d_st * d_out :=
    let w := max_word W fields - s in                                                         (* inversedIndx, :354 *)
    let ack := forallb (d_v i) (in_ports w) in                                                (* handshakeLogicForWord, :246-262 *)
    let s' := if max_word W fields =? 0 then 0
              else if d_r i && ack then (if w =? max_word W fields then max_word W fields else wdec (log2ceil (max_word W fields + 1)) s) else s in   (* :392-405 *)
    (s', mk_do (fun j => d_r i && existsb (Nat.eqb j) (last_ports w) && forallb (fun k => (k =? j) || d_v i k) (last_ports w))     (* StreamNode(masters=lastInPorts).sync(en), :253 *)
               ack (map (bit_of i w) (seq 0 W)) (s =? 0) (map (strb_of w) (seq 0 W))).        (* :409-452; strb is here per bit, the code requires multiples of 8 bits *)
End Fd.
