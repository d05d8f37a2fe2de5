(** Model of hwtLib/amba/axis_comp/frameGen.py (Axi4sFrameGen).

    The registers of AxiLiteEndpoint (C80) are inputs: a write of "enable" / "len" over the bus is a cycle in which
    decoded.enable.dout / decoded.len.dout is valid. *)
From Verif Require Import Base.

Section FrameGen.
  Variables MAX_LEN DW : nat.

  (** frameGen.py:52, 54: width of wordCntr and of the register of the length *)
  Definition g_w : nat := log2ceil MAX_LEN.
  (** frameGen.py:52-54 *)
  Record g_state := mk_g { g_cntr : nat; g_en : bool; g_len : nat }.
  Definition g_init : g_state := mk_g 0 false 0.
  (** cEn.dout, cLen.dout (None: not valid), axis_out.ready *)
  Record g_in := mk_gi { gi_en : option nat; gi_len : option nat; gi_rd : bool }.
  (** axis_out.valid, data, last; the values of the registers readable over the bus *)
  Record g_out := mk_go { go_v : bool; go_d : nat; go_l : bool; go_en : nat; go_len : nat }.

  (** frameGen.py:56-86; fit=True cuts the value to the width of its destination; strb is constant, all ones *)
  Definition g_step (s : g_state) (i : g_in) : g_state * g_out :=
    (mk_g (match gi_len i with
           | Some l => wrap g_w l
           | None => if gi_rd i && g_en s then if g_cntr s =? 0 then g_len s else wdec g_w (g_cntr s)
                     else g_cntr s
           end)
          (match gi_en i with Some e => Nat.odd e | None => g_en s end)
          (match gi_len i with Some l => wrap g_w l | None => g_len s end),
     mk_go (g_en s) (wrap DW (g_cntr s)) (g_cntr s =? 0) (Nat.b2n (g_en s)) (g_len s)).
End FrameGen.
