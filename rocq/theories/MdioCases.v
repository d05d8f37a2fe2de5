(** requests used in the examples *)
From Verif Require Import Base MdioModel MdioSpec.
Definition wreq : md_in := mk_mi true OP_WRITE [true; false; false; true; true] [false; false; true; false; true]
  [true; true; false; true; false; false; true; false; true; true; true; false; false; false; true; false] true true.
Definition rreq : md_in := mk_mi true OP_READ [true; false; false; true; true] [false; false; true; false; true] (repeat false 16) false true.
Definition quiet_in (b : bool) : md_in := mk_mi false [false; false] (repeat false 5) (repeat false 5) (repeat false 16) false b.
(** a line which is 1 0 0 1 0 0 ... from cycle to cycle *)
Definition noise (n : nat) : list md_in := map (fun k => quiet_in (k mod 3 =? 0)) (seq 0 n).
Definition tx0 : list bool := repeat true 32.
Definition rx0 : list bool := repeat false 16.
