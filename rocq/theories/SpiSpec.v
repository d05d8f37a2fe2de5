(** SPI with an idle high clock, both sides sample at rising edges of the clock. *)
From Verif Require Import Base SpiModel.

(** rising edges of spi.clk: (miso, mosi) in the cycle before the edge *)
Fixpoint edges (t : list (sp_in * sp_out)) : list (bool * bool) :=
  match t with
  | (i, o) :: (((_, o') :: _) as t') => if negb (o_clk o) && o_clk o' then (i_miso i, o_mosi o) :: edges t' else edges t'
  | _ => []
  end.
(** mosi does not change with a rising edge *)
Fixpoint mosi_held (t : list (sp_in * sp_out)) : Prop :=
  match t with
  | (_, o) :: (((_, o') :: _) as t') => (o_clk o = false -> o_clk o' = true -> o_mosi o' = o_mosi o) /\ mosi_held t'
  | _ => True
  end.

(** A word given by the user: [w_gap] cycles without a request before it, its bits, last, and what the slave gives on miso in
    the cycles of the word *)
Record word := mk_w { w_gap : list bool; w_bits : list bool; w_last : bool; w_miso : list bool }.
Definition idle_in (b : bool) : sp_in := mk_spi false [] false b.
Definition busy_in (w : word) (b : bool) : sp_in := mk_spi true (w_bits w) (w_last w) b.
Definition inputs (w : word) : list sp_in := map idle_in (w_gap w) ++ map (busy_in w) (w_miso w).
(** the length of a word: the wait after the selection of the slave (if the previous word was the last of its transfer), 8
    periods of the clock and the cycle of the response *)
Definition word_time (HALF SS : nat) (wait : bool) : nat := (if wait then 2 * SS * HALF else 0) + 16 * HALF + 1.
(** the user keeps the word to the response; [wait]: the previous word was the last one of its transfer *)
Definition kept (HALF SS : nat) (wait : bool) (w : word) : Prop :=
  length (w_bits w) = 8 /\ length (w_miso w) = word_time HALF SS wait.
Fixpoint all_kept (HALF SS : nat) (wait : bool) (ws : list word) : Prop :=
  match ws with [] => True | w :: ws' => kept HALF SS wait w /\ all_kept HALF SS (w_last w) ws' end.

(** what is seen in the cycles of the word: exactly 8 bits are exchanged, the slave gets the bits of the word, MSB first, the
    user gets what the slave gave, in the last cycle of the word and only there, the clock is high during the wait *)
Definition exchanged (HALF SS : nat) (wait : bool) (w : word) (t : list (sp_in * sp_out)) : Prop :=
  map fst t = inputs w /\
  map snd (edges t) = w_bits w /\
  mosi_held t /\
  (exists t0 c, t = t0 ++ [c] /\ o_rd (snd c) = true /\ o_din (snd c) = map fst (edges t) /\ Forall (fun c => o_rd (snd c) = false) t0) /\
  Forall (fun c => o_clk (snd c) = true) (firstn (length (w_gap w) + if wait then 2 * SS * HALF else 0) t) /\
  Forall (fun c => o_cs (snd c) = negb (i_vld (fst c))) t.
Fixpoint all_exchanged (HALF SS : nat) (wait : bool) (ws : list word) (t : list (sp_in * sp_out)) : Prop :=
  match ws with
  | [] => t = []
  | w :: ws' => exists t1 t2, t = t1 ++ t2 /\ exchanged HALF SS wait w t1 /\ all_exchanged HALF SS (w_last w) ws' t2
  end.
