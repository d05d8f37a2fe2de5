(** Example runs of AvalonMm_to_Axi4 (data are numbers, burstCount of 3 bits). *)
From Verif Require Import Base AmbModel AvxModel.

Definition xin := avx_in nat nat nat.
Definition xnop : rq (pay nat nat nat) := (false, false, (0, 1, 0, 0)).
Definition xs0 : avx_st nat nat nat := avx_init (fun _ => xnop) xnop (fun _ => 0) 0 (fun _ => 0) 0.
Definition req_in (q : rq (pay nat nat nat)) (ar aw w : bool) : xin := mk_xi q ar aw w false 0 0 false 0.
(** read of 2 words at 16, write of 3 words at 32 with one stall of w and one of aw, write of 1 word at 64 *)
Definition mixx : list xin :=
  [ req_in (true, false, (16, 2, 0, 0)) false false false; req_in (false, true, (32, 3, 1, 15)) true false false;
    req_in (false, true, (0, 1, 2, 15)) true false true; req_in (false, true, (0, 1, 2, 15)) true true true;
    req_in (false, true, (0, 1, 3, 7)) true true false; req_in (false, true, (0, 1, 3, 7)) true false true;
    req_in (false, true, (64, 1, 4, 3)) true false true; req_in xnop true true true; req_in xnop true true true ].
(** one word of read data with the given resp and one write response *)
Definition ansx (rresp bresp : nat) : list xin :=
  [ mk_xi xnop true true true true 7 rresp false 0; mk_xi xnop true true true false 0 0 true bresp; req_in xnop true true true; req_in xnop true true true ].
