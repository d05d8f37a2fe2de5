(** Example data of AsrProps. *)
From Verif Require Import Base SimRamModel AsrModel AsrSpec.
Definition full4 : N := N.ones 32.
Definition ex_mem : list (nat * cell) := [(0, CInt 287454020%N); (2, CNone)].
(** a burst of two words to address 4, the second with a partial strobe to a word which was malloc'ed *)
Definition ex_w : list wword := [mk_ww (mk_hv 1%N full4) 15%N false; mk_ww (mk_hv 43981%N full4) 3%N true].
Definition ex_aw : req := mk_rq 3 4 2.
Definition ex_ar : req := mk_rq 5 0 2.
Definition ex_hist : list arr :=
  [mk_arr [] [ex_aw] []; mk_arr [] [mk_rq 4 8 1] [nth 0 ex_w (mk_ww (mk_hv 0 0) 0 false)];
   mk_arr [] [] [nth 1 ex_w (mk_ww (mk_hv 0 0) 0 false); mk_ww (mk_hv 7%N full4) 15%N true];
   mk_arr [ex_ar] [] []; mk_arr [mk_rq 6 8 1] [] []].
