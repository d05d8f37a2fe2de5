(** What a formatter has to print. *)
From Verif Require Import Base SfModel.

(** complete frames in a sequence of words and the words after them; [cur]: words of a frame which has begun before *)
Fixpoint frames {A} (cur : list A) (ws : list (A * bool)) : list (list A) :=
  match ws with
  | [] => []
  | (d, l) :: ws' => if l then (cur ++ [d]) :: frames [] ws' else frames (cur ++ [d]) ws'
  end.
Fixpoint rest {A} (cur : list A) (ws : list (A * bool)) : list A :=
  match ws with
  | [] => cur
  | (d, l) :: ws' => if l then rest [] ws' else rest (cur ++ [d]) ws'
  end.

(** code of a digit, letters start at [a] *)
Definition digit_char (a g : nat) : nat := if g <? 10 then 48 + g else a + (g - 10).
(** the lowest [n] digits of [v], the highest one first *)
Definition num_text (base : N) (a n : nat) (v : N) : list nat :=
  map (fun k => digit_char a (N.to_nat ((v / base ^ N.of_nat (n - 1 - k)) mod base))) (seq 0 n).
(** text of an item; [num]: values of the vectors, [str]: texts from the streams *)
Definition item_text (num : nat -> N) (str : nat -> list nat) (it : sf_item) : list nat :=
  match it with
  | SStr b => b
  | SNum TX f n => num_text 16 65 n (num f)
  | SNum Tx f n => num_text 16 97 n (num f)
  | SNum Tb f n => num_text 2 0 n (num f)
  | SNum To f n => num_text 8 0 n (num f)
  | SNum Td f n => num_text 10 0 n (num f)
  | SIn f => str f
  end.
Definition text (num : nat -> N) (str : nat -> list nat) (its : list sf_item) : list nat := flat_map (item_text num str) its.

(** words taken from data_out and words taken from stream [f] *)
Definition out_words (t : list (sf_in * sf_out)) : list (option nat * bool) :=
  flat_map (fun io => if so_valid (snd io) && si_ready (fst io) then [(so_data (snd io), so_last (snd io))] else []) t.
Definition in_words (f : nat) (t : list (sf_in * sf_out)) : list (nat * bool) :=
  flat_map (fun io => if si_valid (fst io) f && so_ready (snd io) f then [(si_data (fst io) f, si_last (fst io) f)] else []) t.

(** the output after trace [t]: [n] complete texts, text [k] uses frame [k] of each stream; of the next text the items before [m]
    and the beginning of item [m]; nothing else was taken from the streams *)
Definition printed (items : list sf_item) (num : nat -> N) (t : list (sf_in * sf_out)) : Prop :=
  let fs f := frames [] (in_words f t) in
  let out := frames [] (out_words t) in
  let n := length out in
  (forall k, k < n -> nth_error out k = Some (map Some (text num (fun f => nth k (fs f) []) items))) /\
  exists m it part, nth_error items m = Some it /\
    rest [] (out_words t) = map Some (text num (fun f => nth n (fs f) []) (firstn m items) ++ part) /\
    match it with
    | SIn f => part = rest [] (in_words f t)
    | _ => exists c, c < length (item_text num (fun _ => []) it) /\ part = firstn c (item_text num (fun _ => []) it)
    end /\
    forall j f, nth_error items j = Some (SIn f) ->
      length (fs f) = (if j <? m then n + 1 else n) /\ (j <> m -> rest [] (in_words f t) = []).
