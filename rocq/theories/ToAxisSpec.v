From Verif Require Import Base StreamSpec ToAxisModel.

(** pins as ready/valid cycles, the output word is the data with the last flag *)
Definition ta_obs {A} (c : ta_in A * ta_out A) : hs_cycle A (A * bool) :=
  mk_hs (ti_vld (fst c)) (to_rd (snd c)) (ti_data (fst c))
        (to_vld (snd c)) (ti_ready (fst c)) (to_data (snd c), to_last (snd c)).
(** an idle input in front of a ready output *)
Definition idle {A} (d : A) : ta_in A := mk_ti false d true.
(** number of words of the unfinished frame *)
Definition open_len (lasts : list bool) : nat := fold_left (fun n (l : bool) => if l then 0 else n + 1) lasts 0.
