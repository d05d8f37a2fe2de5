(** Example runs of Axi4_to_AvalonMm. *)
From Verif Require Import Base FifoModel AvmModel.
Definition s0 (depth : nat) : avm_st nat nat nat := avm_init depth 0 0 0 0 false (fun _ => (0, 0)) (0, 0) (fun _ => 0) 0 0 0.
Notation vin := (avm_in nat nat nat nat).
(** one cycle: ar, aw and w are [Some] when valid *)
Definition ci (ar aw : option (nat * nat * nat)) (w : option (nat * bool)) (rrd brd wait : bool) (ret : option nat) : vin :=
  let '(a1, d1, l1) := match ar with Some x => x | None => (0, 0, 0) end in
  let '(a2, d2, l2) := match aw with Some x => x | None => (0, 0, 0) end in
  let '(wd, wl) := match w with Some x => x | None => (0, false) end in
  mk_vi (if ar then true else false) a1 d1 l1 (if aw then true else false) a2 d2 l2 (if w then true else false) wd 1 wl rrd brd wait
        (if ret then true else false) (match ret with Some x => x | None => 0 end).
Definition nop := ci None None None true true false None.
(** a read of [l + 1] words, then the words one after the other while r.ready is [rrd], then the rest *)
Definition rd_run (l : nat) (rrd : bool) : list vin :=
  [ci (Some (8, 5, l)) None None rrd true false None; ci None None None rrd true false None] ++
  map (fun n => ci None None None (rrd || (20 <? n)) true false (Some n)) (seq 0 (l + 1)) ++ repeat nop 30.
(** a long read fills the fifo, the next one waits, and a write is offered with its data *)
Definition wr_run : list vin :=
  [ci (Some (8, 5, 15)) None None false true false None; ci None None None false true false None;
   ci (Some (40, 6, 0)) (Some (100, 7, 0)) (Some (77, true)) false true false None;
   ci (Some (40, 6, 0)) (Some (100, 7, 0)) (Some (77, true)) false true false None].
(** two reads and two writes, with waits *)
Definition mix_run : list vin :=
  [ci (Some (8, 5, 1)) (Some (100, 7, 2)) (Some (70, false)) true true false None;
   ci None (Some (100, 7, 2)) (Some (70, false)) true true true None;
   ci None (Some (100, 7, 2)) (Some (70, false)) true true false None;
   ci (Some (9, 6, 0)) None (Some (70, false)) false true false (Some 1);
   ci (Some (9, 6, 0)) None None false true false (Some 2);
   ci (Some (9, 6, 0)) None (Some (71, false)) false true true None;
   ci (Some (9, 6, 0)) None (Some (71, false)) true true false None;
   ci (Some (9, 6, 0)) None (Some (72, true)) true false false None;
   ci (Some (9, 6, 0)) (Some (108, 9, 0)) (Some (72, true)) true true false None;
   ci None (Some (108, 9, 0)) (Some (73, true)) true true false None;
   ci None None (Some (73, true)) true true false (Some 3)] ++ repeat nop 4.
