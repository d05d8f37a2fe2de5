(** Words which pass the two ports of an asynchronous fifo. *)
From Verif Require Import Base FifoAsyncModel.

Section S.
  Context {A : Type}.
  Notation cyc := (fa_ev A * fa_out A)%type.

  (** words accepted: edge of the write clock with en=1, wait=0 *)
  Definition fa_written1 (c : cyc) : list A :=
    match ev_w (fst c) with
    | Some (true, d) => if ao_wwait (snd c) then [] else [d]
    | _ => []
    end.
  (** words delivered: edge of the read clock with en=1, wait=0; the data is on dataOut.data after the edge *)
  Definition fa_got1 (c : cyc) : list A :=
    match ev_r (fst c) with
    | Some true => if ao_rwait (snd c) then [] else [ao_rdata (snd c)]
    | _ => []
    end.
  Definition fa_written (t : list cyc) : list A := flat_map fa_written1 t.
  Definition fa_got (t : list cyc) : list A := flat_map fa_got1 t.

  Definition w_edges (es : list (fa_ev A)) : nat := length (filter (fun e => match ev_w e with Some _ => true | None => false end) es).
  Definition r_edges (es : list (fa_ev A)) : nat := length (filter (fun e => match ev_r e with Some _ => true | None => false end) es).
End S.
