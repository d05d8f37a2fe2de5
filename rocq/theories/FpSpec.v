(** Vocabulary of the properties of Axi4S_frameParser. *)
From Verif Require Import Base FpModel.

Section Spec.
  Notation cycle := (p_in * p_out)%type.
  (** number of words accepted; values taken from the output of field [j]; words of the input with the mark of the end *)
  Definition eaten (t : list cycle) : nat := length (filter (fun c => i_v (fst c) && o_r (snd c)) t).
  Definition taken (j : nat) (t : list cycle) : list (list bool) := flat_map (fun c => if o_v (snd c) j && i_frd (fst c) j then [o_d (snd c) j] else []) t.
  (** The words of the input are [src 0], [src 1]... with marks of the last word [lst 0], [lst 1]...: whenever a word is offered it is the one after those accepted ([n] accepted before). *)
  Fixpoint feeds (src : nat -> list bool) (lst : nat -> bool) (n : nat) (t : list cycle) : Prop :=
    match t with
    | [] => True
    | c :: t' => (i_v (fst c) = true -> i_d (fst c) = src n /\ i_l (fst c) = lst n) /\ feeds src lst (if i_v (fst c) && o_r (snd c) then S n else n) t'
    end.
  (** Index of word [k] in its frame. A frame described by the structure has [N] words. Without support of underflow and overflow all frames have this size, otherwise the end is marked; all words behind the structure have index [N]. *)
  Fixpoint place (delimited : bool) (N : nat) (lst : nat -> bool) (k : nat) : nat :=
    match k with
    | 0 => 0
    | S k' => if (if delimited then lst k' else place delimited N lst k' =? N - 1) then 0 else Nat.min N (place delimited N lst k' + 1)
    end.
  (** [n] bits from [off] *)
  Definition bits (off n : nat) (l : list bool) : list bool := firstn n (skipn off l).
  (** the structure: offset and width of field [j], number of words of a structure *)
  Definition offset (fields : list fld) (j : nat) : nat := list_sum (map f_w (firstn j fields)).
  Definition width (fields : list fld) (j : nat) : nat := f_w (nth j fields (mk_fld 0 false)).
  Definition nwords (W : nat) (fields : list fld) : nat := (list_sum (map f_w fields) + W - 1) / W.
  (** index of the word with the last bit of field [j] *)
  Definition ends_in (W : nat) (fields : list fld) (j : nat) : nat := (offset fields j + width fields j - 1) / W.
  (** the value of field [j] whose last bit is in word [k] of the input *)
  Definition value (W : nat) (fields : list fld) (src : nat -> list bool) (j k : nat) : list bool :=
    let e := ends_in W fields j in bits (offset fields j) (width fields j) (concat (map src (seq (k - e) (S e)))).
  (** the words among the first [n] words of the input with the last bit of field [j] *)
  Definition due (W : nat) (fields : list fld) (delimited : bool) (lst : nat -> bool) (j n : nat) : list nat :=
    filter (fun k => place delimited (nwords W fields) lst k =? ends_in W fields j) (seq 0 n).
  (** bits of frame [n] if all frames have [N] words *)
  Definition frame (src : nat -> list bool) (N n : nat) : list bool := concat (map src (seq (n * N) N)).
  (** the parser can be built: no empty fields *)
  Definition proper (W : nat) (fields : list fld) : Prop := 1 <= W /\ fields <> [] /\ forall f, In f fields -> 1 <= f_w f.
  Definition is_field (fields : list fld) (j : nat) : Prop := j < length fields /\ f_named (nth j fields (mk_fld 0 false)) = true.
End Spec.
