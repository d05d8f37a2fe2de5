From Verif Require Import Base AlignModel.

(** the bytes of a frame without the gaps *)
Definition bytes_of (f : list word) : list byte_src :=
  flat_map (fun o => match o with None => [] | Some b => [b] end) (concat f).
(** byte [i] of the data which start at byte [offset_in] of the input stream *)
Definition source (wb stream_i byte_cnt offset_in i : nat) : byte_src :=
  let pos := offset_in + i in
  mk_bs stream_i (pos / wb) (pos mod wb) (pos / wb =? (offset_in + byte_cnt - 1) / wb).
(** lengths which a stream may have *)
Definition len_ok (len_min : nat) (len_max : option nat) (l : nat) : Prop :=
  len_min <= l /\ match len_max with None => True | Some m => l <= m end.
