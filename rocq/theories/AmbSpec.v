(** What an observer of both buses of AvalonMmBuff sees. *)
From Verif Require Import Base StreamSpec AmbModel.

Section Spec.
  Context {P D R : Type}.
  Notation cyc := (amb_in P D R * amb_out P D R)%type.
  (** requests as a stream: a request is accepted when waitRequest is low *)
  Definition rq_obs (c : cyc) : hs_cycle (rq P) (rq P) :=
    mk_hs (asks (a_rq (fst c))) (negb (b_wait (snd c))) (a_rq (fst c))
          (asks (b_rq (snd c))) (negb (a_wait (fst c))) (b_rq (snd c)).
  (** answers in each cycle on both sides *)
  Definition rd_m (c : cyc) : option D := if a_rv (fst c) then Some (a_rd (fst c)) else None.
  Definition rd_s (c : cyc) : option D := if b_rv (snd c) then Some (b_rd (snd c)) else None.
  Definition wr_m (c : cyc) : option R := if a_wv (fst c) then Some (a_wr (fst c)) else None.
  Definition wr_s (c : cyc) : option R := if b_wv (snd c) then Some (b_wr (snd c)) else None.
  (** [x] is [y], [k] cycles later *)
  Definition delayed {X : Type} (k : nat) (y x : list (option X)) : Prop := x = firstn (length x) (repeat None k ++ y).
  Definition delay_of (db : nat) : nat := if db =? 1 then 1 else 2.
  (** parameters which elaborate *)
  Definition params_ok (ab db : nat) : Prop := db = 1 /\ ab = 1 \/ 2 <= db.
End Spec.
