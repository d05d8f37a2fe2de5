(** Example data of RtrProps. *)
From Verif Require Import Base RtrModel RtrSpec.
Definition m_ex : meta := mk_m None None None false false false.
Definition ex0 : rtr (D := nat) := rtr_init (fun _ => 0) 0 0 0 m_ex m_ex 0 0.
(** a cycle: read of an item with id 7, write address with flush and priv 9, a word of write data, all receivers ready or not *)
Definition cy (ra : option nat) (wa : option (nat * bool)) (wd : option nat) (rdy : bool) : rtr_in (D := nat) :=
  mk_ti (match ra with Some _ => true | None => false end) (match ra with Some a => a | None => 0 end) 7 rdy
    (match wa with Some _ => true | None => false end) (match wa with Some (a, _) => a | None => 0 end)
    (match wa with Some (_, f) => f | None => false end) 9
    (match wd with Some _ => true | None => false end) (fun _ => match wd with Some d => d | None => 0 end) rdy rdy.
Definition nop : rtr_in (D := nat) := cy None None None true.
(** writes, a swap and reads of item 3 *)
Definition ex_one : list (rtr_in (D := nat)) :=
  [cy None (Some (3, false)) (Some 5) true; cy (Some 3) None None true; cy (Some 3) (Some (3, true)) (Some 6) true; cy (Some 3) None None true].
(** two items of four words *)
Definition ex_w4 : list (rtr_in (D := nat)) :=
  [cy None (Some (1, false)) (Some 1) true; cy None None (Some 2) true; cy None None None true; cy None (Some (0, false)) (Some 3) true;
   cy None (Some (0, false)) (Some 4) true; cy None (Some (0, false)) (Some 5) true; cy None None (Some 6) true].
Definition ex_r4 : list (rtr_in (D := nat)) := [cy (Some 2) None None true; cy (Some 1) None None true; nop; cy None None None false; nop; nop; nop].
(** a flush which waits for its data *)
Definition late_data : list (rtr_in (D := nat)) := [cy None (Some (3, true)) None true; cy None (Some (3, true)) (Some 5) true; nop; nop; nop].
(** a flush which waits because the receiver of reads is not ready *)
Definition stalled : list (rtr_in (D := nat)) :=
  [cy (Some 1) None None false; cy (Some 1) None None false; cy None (Some (3, true)) (Some 5) false; cy None (Some (3, true)) (Some 6) true; nop; nop; nop; nop].
(** a read between the words of a write *)
Definition torn : list (rtr_in (D := nat)) :=
  [cy None (Some (0, false)) (Some 1) true; cy (Some 0) None None true; nop; nop; cy None None (Some 1) true; nop; nop].
(** a read between the words of a write with flush *)
Definition stolen : list (rtr_in (D := nat)) :=
  [cy None (Some (0, true)) (Some 1) true; nop; cy (Some 2) None None true; nop; nop; cy None None (Some 1) true; nop; nop; nop; nop].
