(** Observer vocabulary for joins and splits. *)
From Verif Require Import Base JoinSplitModel.

Section J.
  Context {A : Type}.
  (** input [k] hands over a word in this cycle *)
  Definition in_moves (i : join_in A) (o : join_out A) (k : nat) : Prop :=
    exists d, nth_error (j_in i) k = Some (true, d) /\ nth_error (j_rds o) k = Some true.
  Definition in_word (i : join_in A) (k : nat) (d : A) : Prop := nth_error (j_in i) k = Some (true, d).
  (** the output hands over a word in this cycle *)
  Definition out_moves (i : join_in A) (o : join_out A) : Prop := j_vld o = true /\ j_rd i = true.
End J.

(** Output [k] of a split takes a word in this cycle. *)
Definition out_takes (i : split_in) (o : split_out) (k : nat) : Prop :=
  nth_error (s_rds i) k = Some true /\ nth_error (s_vlds o) k = Some true.
(** dataIn hands over a word. *)
Definition din_moves (i : split_in) (o : split_out) : Prop := s_vld i = true /\ s_rd o = true.

(** Bit vector with exactly bit [k] set. *)
Definition onehot (n k : nat) : list bool := map (fun j => j =? k) (seq 0 n).

(** (output, word) pairs handed over by HsSplitSelect in one cycle / in a history. *)
Definition ssel_taken {A} (c : ssel_in A * ssel_out A) : list (nat * A) :=
  map (fun k => (k, ss_odata (snd c)))
    (filter (fun k => nth k (ss_vlds (snd c)) false && nth k (ss_rds (fst c)) false)
            (seq 0 (length (ss_rds (fst c))))).
Definition ssel_deliveries {A} (t : list (ssel_in A * ssel_out A)) : list (nat * A) := flat_map ssel_taken t.
Definition ssel_words {A} (t : list (ssel_in A * ssel_out A)) : list A :=
  flat_map (fun c => if ss_vld (fst c) && ss_rd (snd c) then [ss_data (fst c)] else []) t.
Definition ssel_selects {A} (t : list (ssel_in A * ssel_out A)) : list (list bool) :=
  flat_map (fun c => if ss_sel_vld (fst c) && ss_sel_rd (snd c) then [ss_sel (fst c)] else []) t.

(** If selectedOneHot is exported its consumer is ready. *)
Definition sel_open (exp : bool) (i : split_in) : Prop := exp = true -> s_sel_rd i = true.

(** A cycle of HsSplitSelect with [n] outputs in which an offered select is one-hot. *)
Definition env_ok {A} (n : nat) (i : ssel_in A) : Prop :=
  length (ss_rds i) = n /\ (ss_sel_vld i = true -> exists k, k < n /\ ss_sel i = onehot n k).
