From Verif Require Import Base TimerModel.

(** number of enabled cycles since the last reset; input (enable, reset) *)
Definition enabled_since (h : list (bool * bool)) : nat :=
  fold_left (fun n (i : bool * bool) => let '(en, rst) := i in if rst then 0 else if en then n + 1 else n) h 0.
(** the sampled values: [sig] in the cycles with sampleTick *)
Definition samples (h : list (bool * bool)) : list bool := map snd (filter fst h).
Definition ones (l : list bool) : nat := length (filter (fun b => b) l).
(** the last [k] elements *)
Definition lastn {A} (k : nat) (l : list A) : list A := skipn (length l - k) l.
(** at least half of the samples of the finished window, which includes the current one, are high *)
Definition majority (n : nat) (all : list bool) : bool := n / 2 <=? ones (lastn n all).
