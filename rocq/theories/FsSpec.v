(** What a splitter of a footer has to do, in terms of the bytes of frames. *)
From Verif Require Import Base FsModel.

Section S.
Context {byte : Type}.

(** the bytes of a word are those with the bit of keep *)
Definition bytes (w : word byte) : list byte := map fst (filter snd (combine (w_d w) (w_k w))).
(** complete frames in a sequence of words, [acc]: bytes of the frame before it, and the bytes of the incomplete one *)
Fixpoint frames (acc : list byte) (ws : list (word byte)) : list (list byte) :=
  match ws with
  | [] => []
  | w :: ws' => if w_l w then (acc ++ bytes w) :: frames [] ws' else frames (acc ++ bytes w) ws'
  end.
Fixpoint rest (acc : list byte) (ws : list (word byte)) : list byte :=
  match ws with
  | [] => acc
  | w :: ws' => rest (if w_l w then [] else acc ++ bytes w) ws'
  end.
(** a word with B bytes, all of them if it is not the last one of the frame, otherwise the first 1 to B of them *)
Definition word_ok (B : nat) (w : word byte) : Prop :=
  length (w_d w) = B /\
  exists n, 1 <= n <= B /\ w_k w = repeat true n ++ repeat false (B - n) /\ (w_l w = false -> n = B).
(** the words which went over the ports *)
Definition accepted (t : list (fs_in byte * fs_out byte)) : list (word byte) :=
  map (fun c => i_w (fst c)) (filter (fun c => i_v (fst c) && o_rd (snd c)) t).
Definition sent0 (t : list (fs_in byte * fs_out byte)) : list (word byte) :=
  map (fun c => o0_w (snd c)) (filter (fun c => o0_v (snd c) && i_r0 (fst c)) t).
Definition sent1 (t : list (fs_in byte * fs_out byte)) : list (word byte) :=
  map (fun c => o1_w (snd c)) (filter (fun c => o1_v (snd c) && i_r1 (fst c)) t).
(** the prefix and the footer of F bytes *)
Definition data_of (F : nat) (f : list byte) : list byte := firstn (length f - F) f.
Definition foot_of (F : nat) (f : list byte) : list byte := skipn (length f - F) f.
Definition prefix (a b : list byte) : Prop := exists c, b = a ++ c.
(** [o] are words in which the frames [fs] and a part of the next one were sent *)
Definition sent_frames (o : list (word byte)) (n : nat) (fs : list (list byte)) (next : list byte) : Prop :=
  n <= length fs /\ frames [] o = firstn n fs /\ prefix (rest [] o) (nth n fs next).
End S.
