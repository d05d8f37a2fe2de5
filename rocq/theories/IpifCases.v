(** An example run of Axi4Lite_to_Ipif: a write with a slow slave and a late response, then a read. *)
From Verif Require Import Base IpifModel.
Definition pi (arv awv wv rrd brd rdack wrack er : bool) : ip_in nat nat nat := mk_ii arv 4 awv 8 wv 77 3 rrd brd rdack wrack er 55.
Definition run1 := [pi false true true true true false false false; pi false false true true true false false false;
  pi false false false true false false false false; pi false false false true false false true true; pi true false false true true false false false;
  pi true false false true true false false false; pi false false false true true true false false].
