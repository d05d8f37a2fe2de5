(** What users of buff, AxiBuff and Mi32Buff rely on. *)
From Verif Require Import Base StreamSpec HsRegModel HsRegSpec AmbSpec BufModel.

(** Number of words which a buffer made with these parameters can hold. *)
Definition holds (items : nat) (lat : option latency) : nat :=
  match lat with
  | None => items
  | Some LBreak => if items =? 0 then 0 else 2
  | Some (LInt n) => if items =? 0 then 0 else if n =? 1 then 1 else Nat.max n items
  end.

(** A machine seen through [obs] is a buffer of [n] words: see [queue_law] and [out_stable]; with n = 0 it is only a wire. *)
Definition is_buffer {A} (n : nat) (t : list (hs_cycle A A)) : Prop := queue_law n [] t /\ (0 < n -> out_stable t).

(** The channels of an axi bus. *)
Inductive chan := CAr | CAw | CW | CR | CB.
Definition chan_in {A} (c : chan) (i : axb_in A) : hsr_in A := match c with CAr => i_ar i | CAw => i_aw i | CW => i_w i | CR => i_r i | CB => i_b i end.
Definition chan_out {A} (c : chan) (o : axb_out A) : hsr_out A := match c with CAr => o_ar o | CAw => o_aw o | CW => o_w o | CR => o_r o | CB => o_b o end.
Definition chan_obs {A} (c : chan) (x : axb_in A * axb_out A) : hs_cycle A A := hsr_obs (chan_in c (fst x), chan_out c (snd x)).
Definition depth (addr data : nat) (c : chan) : nat := match c with CW | CR => data | _ => addr end.

Section Mi32.
  Context {P D : Type}.
  Notation cyc := (mib_in P D * mib_out P D)%type.
  Definition mrq_obs (c : cyc) : hs_cycle (mrq P) (mrq P) :=
    mk_hs (wants (mi_rq (fst c))) (mo_ardy (snd c)) (mi_rq (fst c)) (wants (mo_rq (snd c))) (mi_ardy (fst c)) (mo_rq (snd c)).
  Definition ans_m (c : cyc) : option D := if mi_drdy (fst c) then Some (mi_drd (fst c)) else None.
  Definition ans_s (c : cyc) : option D := if mo_drdy (snd c) then Some (mo_drd (snd c)) else None.
End Mi32.
