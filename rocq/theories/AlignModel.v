(** Model of hwtLib/abstract/frame_utils/alignment_utils.py. *)
From Verif Require Import Base.

(** ByteSrcInfo, byte_src_info.py *)
Record byte_src := mk_bs { bs_stream : nat; bs_word : nat; bs_byte : nat; bs_last : bool }.
Notation word := (list (option byte_src)).

(** append to the last word of the (reversed) frame *)
Definition app_last {A} (x : A) (rf : list (list A)) : list (list A) :=
  match rf with [] => [[x]] | w :: rf' => (w ++ [x]) :: rf' end.

(** create_frame, alignment_utils.py:84-127; the asserts on the offsets are hypotheses of the theorems.  The state of the loop
    is the reversed frame and last_in_word_i + 1.  [None] = AssertionError of line 118. *)
Definition src_info (wb stream_i byte_cnt offset_in i : nat) : byte_src :=
  let in_B_i := i + offset_in in
  mk_bs stream_i (in_B_i / wb) (in_B_i mod wb) (in_B_i / wb =? (offset_in + byte_cnt - 1) / wb).
Fixpoint create_loop (wb stream_i byte_cnt offset_in : nat) (is : list nat) (rf : list word) (last_p1 : nat) : option (list word) :=
  match is with
  | [] => Some rf
  | i :: is' =>
      let in_word_i := (i + offset_in) / wb in
      let b := Some (src_info wb stream_i byte_cnt offset_in i) in
      if in_word_i + 1 =? last_p1 then create_loop wb stream_i byte_cnt offset_in is' (app_last b rf) last_p1
      else if last_p1 =? in_word_i then create_loop wb stream_i byte_cnt offset_in is' ([b] :: rf) (in_word_i + 1)
      else None
  end.
Definition pad_last (wb : nat) (rf : list word) : list word :=
  match rf with [] => [] | w :: rf' => (w ++ repeat None (wb - length w)) :: rf' end.
Definition create_frame (wb stream_i byte_cnt offset_out offset_in : nat) : option (list word) :=
  if byte_cnt =? 0 then Some []
  else
    let '(rf, lp) := if offset_out =? 0 then ([], 0) else ([repeat None offset_out], 1) in
    match create_loop wb stream_i byte_cnt offset_in (seq 0 byte_cnt) rf lp with
    | Some rf => Some (rev (pad_last wb rf))
    | None => None
    end.

(** join_streams, alignment_utils.py:45-82; the state is the reversed list of words, the head is curr_word *)
Definition join_step (wb offset : nat) (rf : list word) (id : nat * option byte_src) : list word :=
  let '(i, d) := id in
  if (offset <=? i) && (match d with None => true | _ => false end) then rf
  else match rf with
       | [] => [[d]]
       | w :: rf' => if length w =? wb then [d] :: rf else (w ++ [d]) :: rf'
       end.
Definition join_streams (wb : nat) (stream_data : list (list word)) (offset : nat) : list word :=
  let bytes := repeat None offset ++ concat (map (fun frame => concat frame) stream_data) in
  rev (pad_last wb (fold_left (join_step wb offset) (combine (seq 0 (length bytes)) bytes) [])).

(** next_frame_offsets, alignment_utils.py:21-33: elements of [bw] bits, words of [dw] bits; [len_max = None] is infinity.
    [fuel]: dw + 1 iterations are enough (there are dw offsets).  Result before sorted(): the set in order of insertion. *)
Fixpoint offsets_loop (fuel bw dw i : nat) (len_max : option nat) (acc : list nat) : option (list nat) :=
  match fuel with
  | 0 => None
  | S fuel' =>
      if match len_max with None => true | Some m => i <=? m end then
        let o := (i * bw) mod dw in
        if existsb (Nat.eqb o) acc then Some acc
        else offsets_loop fuel' bw dw (i + 1) len_max (acc ++ [o])
      else Some acc
  end.
Definition next_frame_offsets (bw dw len_min : nat) (len_max : option nat) : option (list nat) :=
  offsets_loop (dw + 1) bw dw len_min len_max [].
