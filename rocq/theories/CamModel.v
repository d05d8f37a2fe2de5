(** Model of hwtLib/mem/cam.py [Cam] (and of one match port of [CamMultiPort], cam.py:128-135), with USE_VLD_BIT. *)
From Verif Require Import Base.

(** width of write.addr, cam.py:57 *)
Definition cam_addr_width (ITEMS : nat) : nat := log2ceil (ITEMS - 1).

(** inputs of a cycle: match.vld, match.data, out.rd, write.vld, write.addr, write.data, write.vld_flag;
    keys are KEY_WIDTH bit words *)
Record cam_in := mk_ci { c_mvld : bool; c_mkey : N; c_ordy : bool; c_wvld : bool; c_waddr : nat; c_wkey : N; c_wflag : bool }.
(** outputs: match.rd, out.vld, out.data (bit i = item i), write.rd *)
Record cam_out := mk_co { c_mrd : bool; c_ovld : bool; c_odata : list bool; c_wrd : bool }.

(** [Concat(data, flag)], cam.py:65-66, 78-79 *)
Definition cam_word (key : N) (flag : bool) : N := (key * 2 + N.b2n flag)%N.

(** content of cam_mem, one word per item *)
Fixpoint set_nth {A} (l : list A) (i : nat) (v : A) : list A :=
  match l, i with
  | [], _ => []
  | _ :: l', 0 => v :: l'
  | x :: l', S i' => x :: set_nth l' i' v
  end.

(** writeHandler, cam.py:60-72, matchHandler, cam.py:74-88 (StreamNode with one master and one slave passes vld and rd) *)
Definition cam_step (mem : list N) (i : cam_in) : list N * cam_out :=
  (if c_wvld i then set_nth mem (c_waddr i) (cam_word (c_wkey i) (c_wflag i)) else mem,
   mk_co (c_ordy i) (c_mvld i) (map (fun w => N.eqb w (cam_word (c_mkey i) true)) mem) true).

(** cam.py:97-100 *)
Definition cam_init (ITEMS : nat) : list N := repeat 0%N ITEMS.
