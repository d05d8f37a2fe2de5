(** Model of hwtLib/abstract/debug_bus_monitor.py [DebugBusMonitor] (layout of the data memory and of its description) and of
    hwtLib/tools/debug_bus_monitor_ctl.py [DebugBusMonitorCtlDevmem] (reading and the text output).
    Simplified: names are numbers; the description is passed without its JSON text; lines of the text are records. *)
From Coq Require Import NArith List.
From Verif Require Import Base.
Import ListNotations.
Local Open Scope N_scope.

(** An interface with the current values of its signals: a signal (width, value) or named members *)
Inductive hio := HLeaf (w v : N) | HNode (l : hios)
with hios := hnil | hcons (name : nat) (t : hio) (l : hios).
(** data_spec: offset and width, or named members *)
Inductive dspec := SLeaf (off w : N) | SNode (l : dspecs)
with dspecs := snil | scons (name : nat) (t : dspec) (l : dspecs).

(** _build_meta_memory, debug_bus_monitor.py:194-205 *)
Fixpoint bm_spec (t : hio) (off : N) : N * dspec :=
  match t with
  | HLeaf w _ => (off + w, SLeaf off w)
  | HNode l => let '(off', r) := bm_specs l off in (off', SNode r)
  end
with bm_specs (l : hios) (off : N) : N * dspecs :=
  match l with
  | hnil => (off, snil)
  | hcons n t l' => let '(off1, s) := bm_spec t off in let '(off2, r) := bm_specs l' off1 in (off2, scons n s r)
  end.

(** the data memory (:144-152), as HTypeFromHwIOObjMap lays it out: members are packed from the lowest bit (the address decoder of the bus endpoint is not modelled); width and value *)
Fixpoint hw_bits (t : hio) : N * N :=
  match t with HLeaf w v => (w, v) | HNode l => hw_bitss l end
with hw_bitss (l : hios) : N * N :=
  match l with hnil => (0, 0) | hcons _ t l' => let '(w1, v1) := hw_bits t in let '(w2, v2) := hw_bitss l' in (w1 + w2, v1 + 2 ^ w1 * v2) end.

(** DebugBusMonitorDataRecord: name and interface (None is visual only), in the order of [register]; the hierarchy made by add_children *)
Definition recs := list (nat * option hio).
Inductive mtree := MT (id : nat) (ch : mforest)
with mforest := fnil | fcons (t : mtree) (f : mforest).
(** VisualNodeTemplate *)
Inductive mnode := MN (name : nat) (spec : dspec) (ch : mnodes)
with mnodes := mnil | mcons (m : mnode) (l : mnodes).

Fixpoint hw_memory (r : recs) : N * N :=
  match r with
  | [] => (0, 0)
  | (_, None) :: r' => hw_memory r'
  | (_, Some t) :: r' => let '(w1, v1) := hw_bits t in let '(w2, v2) := hw_memory r' in (w1 + w2, v1 + 2 ^ w1 * v2)
  end.
(** build_meta_memory_json, :209-231 *)
Fixpoint bm_meta (r : recs) (t : mtree) (off : N) : N * mnode :=
  match t with
  | MT i ch =>
      let '(name, io) := nth i r (0%nat, None) in
      let '(off1, s) := match io with None => (off, SNode snil) | Some h => bm_spec h off end in
      let '(off2, c) := bm_metas r ch off1 in (off2, MN name s c)
  end
with bm_metas (r : recs) (f : mforest) (off : N) : N * mnodes :=
  match f with
  | fnil => (off, mnil)
  | fcons t f' => let '(off1, m) := bm_meta r t off in let '(off2, l) := bm_metas r f' off1 in (off2, mcons m l)
  end.

(** get_data_memory_width, debug_bus_monitor_ctl.py:248-263 *)
Fixpoint spec_end (s : dspec) : N := match s with SLeaf off w => off + w | SNode l => spec_ends l end
with spec_ends (l : dspecs) : N := match l with snil => 0 | scons _ s l' => N.max (spec_end s) (spec_ends l') end.
Fixpoint data_width (l : mnodes) : N := match l with mnil => 0 | mcons (MN _ s _) l' => N.max (spec_end s) (data_width l') end.
(** data_memory_size, :246 *)
Definition data_size (l : mnodes) : N := (data_width l + 7) / 8.

(** DebugBusMonitorCtlDevmem.read (:336-347) with words_to_int (:29-38) and int.from_bytes; [word] gives the words from the address of the data.
    A number of more than [size] bytes raises in to_bytes ([None]) *)
Definition words_to_int (ws : list N) : N := fold_left (fun acc x => acc * 2 ^ 32 + x) (rev ws) 0.
Definition mask_last (ws : list N) (size : N) : list N :=
  if size mod 4 =? 0 then ws else removelast ws ++ [last ws 0 mod 2 ^ (8 * (size mod 4))].
Definition ctl_read (word : nat -> N) (size : N) : option N :=
  let ws := map word (seq 0 (N.to_nat ((size + 3) / 4))) in
  let x := words_to_int (mask_last ws size) in if x <? 2 ^ (8 * size) then Some x else None.

(** _default_txt_formatter, :196-214, with _format_data (:187-193) without the base of the number: indent, name, value *)
Definition txt := list (nat * nat * option N).
Definition sel (data off w : N) : N := (data / 2 ^ off) mod 2 ^ w.
Fixpoint fmt_spec (name : nat) (s : dspec) (data : N) (ind : nat) : txt :=
  match s with
  | SLeaf off w => [(ind, name, Some (sel data off w))]
  | SNode l => (ind, name, None) :: fmt_specs l data (S ind)
  end
with fmt_specs (l : dspecs) (data : N) (ind : nat) : txt :=
  match l with snil => [] | scons n s l' => fmt_spec n s data ind ++ fmt_specs l' data ind end.
Fixpoint fmt_node (m : mnode) (data : N) (ind : nat) : txt :=
  match m with
  | MN name s ch =>
      match s with
      | SLeaf off w => [(ind, name, Some (sel data off w))]
      | SNode l => (ind, name, None) :: fmt_specs l data (S ind) ++ fmt_nodes ch data (S ind)
      end
  end
with fmt_nodes (l : mnodes) (data : N) (ind : nat) : txt :=
  match l with mnil => [] | mcons m l' => fmt_node m data ind ++ fmt_nodes l' data ind end.
(** dump_txt, :280-283, of the monitor with the records and hierarchy *)
Definition dump (r : recs) (f : mforest) (word : nat -> N) : option txt :=
  let m := snd (bm_metas r f 0) in
  match ctl_read word (data_size m) with Some data => Some (fmt_nodes m data 0) | None => None end.
