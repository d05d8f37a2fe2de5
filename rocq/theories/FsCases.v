(** Examples: 2 bytes in a word, a footer of 3 bytes, frames of 6, 3 and 4 bytes with stalls *)
From Verif Require Import Base FsModel FsSpec.
Definition wd (a b : nat) (n : nat) (l : bool) : word nat := mk_w [a; b] (repeat true n ++ repeat false (2 - n)) l.
Definition regs0 (n : nat) : list (word nat) := repeat (wd 0 0 0 false) n.
Definition ins : list (fs_in nat) :=
  [ mk_i true (wd 1 2 2 false) true true; mk_i true (wd 3 4 2 false) true true; mk_i false (wd 9 9 2 true) false false;
    mk_i true (wd 5 6 2 true) true true; mk_i true (wd 11 12 2 false) true false; mk_i false (wd 11 12 2 false) true true;
    mk_i true (wd 13 0 1 true) true true; mk_i true (wd 21 22 2 false) true true; mk_i true (wd 23 24 2 true) false true;
    mk_i false (wd 23 24 2 true) true true; mk_i true (wd 31 32 2 false) true true ].
Definition drain : list (word nat) := repeat (wd 0 0 0 true) 3.
(** a footer of 1 byte in one word with the data *)
Definition short : list (fs_in nat) := [mk_i true (wd 1 2 2 true) false false; mk_i false (wd 0 0 0 false) false false].
