(** Example runs of AxiResize. *)
From Verif Require Import Base RszModel RszSpec.

(** idle pins; two writes 4 at address 6, 5 at address 1 of 2-byte words, ready of aw of m is late *)
Definition ci (awv : bool) (a : nat) (wv : bool) (w : list nat * list bool) (mawrd mwrd : bool) : rs_in nat unit unit :=
  mk_ri awv (a, tt) wv w true false (0, tt) false mawrd mwrd false tt false false ([], tt).
Definition cw := [ci true 6 true ([4; 7], [true; true]) false true; ci true 1 true ([4; 7], [true; true]) false true;
  ci true 1 true ([4; 7], [true; true]) true true; ci false 0 true ([4; 7], [true; true]) true true;
  ci false 0 true ([4; 7], [true; true]) true true; ci false 0 true ([5; 8], [true; false]) true true; ci false 0 true ([5; 8], [true; false]) true true].
Definition cri (arv : bool) (a : nat) (rrd marrd mrv : bool) (r : list nat) : rs_in nat unit unit :=
  mk_ri false (0, tt) false ([0; 0], [false; false]) true arv (a, tt) rrd false false false tt marrd mrv (r, tt).
Definition cr := [cri true 6 true true false []; cri true 1 true true false []; cri false 0 false true true [40; 41; 42; 43];
  cri false 0 false true true [40; 41; 42; 43]; cri false 0 true true true [40; 41; 42; 43]; cri false 0 true true true [50; 51; 52; 53]].
(** 1-byte words: a write at address 1 *)
Definition cb := let i v := ci v 1 true ([4], [true]) true true in [i true; i false; i false; i false].
