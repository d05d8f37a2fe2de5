(** Model of hwtLib/xilinx/ipif/interconnectMatrix.py [IpifInterconnectMatrix]: a combinational circuit with a single master (:48-49). The
    signals be, rnw and data are wires to all slaves (:59-61) and are the field [mi_p]. *)
From Verif Require Import Base.

Section Im.
  Context {P D : Type}.
  (** SLAVES: offset and size (normalized, C35); ADDR_WIDTH of the master *)
  Variables (SLAVES : list (nat * nat)) (AW : nat).
  (** answer of a slave: error, rdack, wrack, data *)
  Record im_resp := mk_imr { r_err : bool; r_rdack : bool; r_wrack : bool; r_data : D }.
  (** bus2ip_cs, bus2ip_addr and the rest of the master, answers of the slaves *)
  Record im_in := mk_imi { mi_cs : bool; mi_addr : nat; mi_p : P; mi_s : nat -> im_resp }.
  (** slaves: bus2ip_cs, bus2ip_addr, the rest; master: error, rdack, wrack, data ([None] is unknown) *)
  Record im_out := mk_imo { mo_cs : nat -> bool; mo_addr : nat -> nat; mo_p : nat -> P; mo_err : bool; mo_rdack : bool; mo_wrack : bool; mo_data : option D }.

  (** bitsOfSubAddr, :63, equal to ADDR_WIDTH of the port of the slave, :40 *)
  Definition im_bits (s : nat * nat) : nat := log2ceil (snd s - 1).
  (** prefix and m_cs_<i>, :64-67 *)
  Definition im_cs (a : nat) (s : nat * nat) : bool := a / 2 ^ im_bits s =? wrap (AW - im_bits s) (fst s / 2 ^ im_bits s).
  (** :58, :68: the signals of slave [j] *)
  Definition im_scs (i : im_in) (j : nat) : bool :=
    match nth_error SLAVES j with Some s => mi_cs i && im_cs (mi_addr i) s | None => false end.
  Definition im_saddr (i : im_in) (j : nat) : nat :=
    match nth_error SLAVES j with Some s => wrap (im_bits s) (mi_addr i) | None => 0 end.
  (** :70-72, :75-77: or of the answers of the selected slaves *)
  Fixpoint im_or (f : im_resp -> bool) (i : im_in) (l : list (nat * nat)) (j : nat) : bool :=
    match l with
    | [] => false
    | s :: l' => (im_cs (mi_addr i) s && f (mi_s i j)) || im_or f i l' (j + 1)
    end.
  (** :79-82: data of the first selected slave *)
  Fixpoint im_mux (i : im_in) (l : list (nat * nat)) (j : nat) : option D :=
    match l with
    | [] => None
    | s :: l' => if im_cs (mi_addr i) s then Some (r_data (mi_s i j)) else im_mux i l' (j + 1)
    end.
  Definition im_o (i : im_in) : im_out :=
    mk_imo (im_scs i) (im_saddr i) (fun _ => mi_p i) (im_or r_err i SLAVES 0) (im_or r_rdack i SLAVES 0) (im_or r_wrack i SLAVES 0) (im_mux i SLAVES 0).
End Im.
Arguments im_resp : clear implicits. Arguments im_in : clear implicits. Arguments im_out : clear implicits.
