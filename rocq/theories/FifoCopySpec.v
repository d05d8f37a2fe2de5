(** What replaying a frame means.  The words accepted so far are numbered from 0 in the order of acceptance; [m] is the
    number of the first word of the frame which can be replayed, [p] the number of the word to be read next. *)
From Verif Require Import Base FifoCopyModel.

Definition opt_list {A} (b : bool) (x : A) : list A := if b then [x] else [].

(** [FifoCopy] with capacity [cap].  A write/read is accepted with en = 1, wait = 0.  A read with the replay request
    (copy_frame.vld = data = 1) gives word [m] and continues behind it; copy_frame.vld = 1, data = 0 makes the next unread
    word the first word of the frame.  Nothing is said after a replay was requested while no word was stored. *)
Fixpoint fcopy_law {A} (cap : nat) (acc : list A) (m p : nat) (t : list (fc_in A * fc_out A)) : Prop :=
  match t with
  | [] => True
  | (i, o) :: t' =>
      let copy := fi_cvld i && fi_cdata i in
      let mark := fi_cvld i && negb (fi_cdata i) in
      m <= p <= length acc /\ length acc - m <= cap /\
      (fo_wwait o = true <-> length acc - m = cap) /\
      (fo_rwait o = true <-> p = length acc /\ copy = false) /\
      let acc' := acc ++ opt_list (fi_wen i && negb (fo_wwait o)) (fi_data i) in
      let m' := if mark then p else m in
      if fi_ren i && negb (fo_rwait o) then
        if copy then
          m < length acc -> nth_error acc m = Some (fo_data o) /\ fcopy_law cap acc' m' (m + 1) t'
        else
          nth_error acc p = Some (fo_data o) /\ fcopy_law cap acc' m' (p + 1) t'
      else fcopy_law cap acc' m' p t'
  end.

(** The stream components: a word is accepted/delivered in a cycle with valid = ready = 1. *)
Definition set_id {D ID} (w : cword D ID) (rid : option ID) : cword D ID :=
  match rid with Some r => mk_cw (cw_data w) r (cw_last w) | None => w end.

(** The delivered words are the accepted ones in order; after the last word of a frame the same frame is delivered again,
    with the id replaced, if dataOut_copy_frame was high with this word. *)
Fixpoint copy_law {D ID} (acc : list (cword D ID)) (m p : nat) (rid : option ID)
         (t : list (ac_in D ID * ac_out D ID)) : Prop :=
  match t with
  | [] => True
  | (i, o) :: t' =>
      let acc' := acc ++ opt_list (ai_vld i && ao_rd o) (ai_word i) in
      if ao_vld o && ai_rd i then
        exists w, nth_error acc p = Some w /\ ao_word o = set_id w rid /\
          if cw_last w then
            if ai_copy i then copy_law acc' m m (Some (ai_repl i)) t'
            else copy_law acc' (p + 1) (p + 1) None t'
          else copy_law acc' m (p + 1) rid t'
      else copy_law acc' m p rid t'
  end.

(** words accepted in a trace *)
Definition ac_accepted {D ID} (t : list (ac_in D ID * ac_out D ID)) : list (cword D ID) :=
  flat_map (fun c => opt_list (ai_vld (fst c) && ao_rd (snd c)) (ai_word (fst c))) t.
Definition ac_delivered {D ID} (t : list (ac_in D ID * ac_out D ID)) : list (cword D ID) :=
  flat_map (fun c => opt_list (ao_vld (snd c) && ai_rd (fst c)) (ao_word (snd c))) t.

(** number of words at the end of [l] which follow its last word with the last flag: the length of the unfinished frame *)
Fixpoint open_frame {D ID} (l : list (cword D ID)) : nat :=
  match l with
  | [] => 0
  | w :: l' => if existsb cw_last l' then open_frame l' else if cw_last w then length l' else S (length l')
  end.
