From Verif Require Import Base HashModel HashSpec HashProofs.
From Coq Require Import NArith.

(** C78: the results of HashTableCoreWithRam are the answers to the accepted lookups, in their order *)
Theorem C78_hash_table : forall KW DW AW lh hash u it a b c e (is : list ht_in), (forall n, item_fits KW DW (it n)) -> Forall (h_fits KW DW) is ->
  let t := trace (ht_step KW DW AW lh hash u) (ht_init DW it a b c e) is in
  exists inside, h_answers AW lh hash (fun n => it (N.to_nat n)) t = h_results t ++ inside /\ length inside <= 2.
Proof. exact ht_all. Qed.
Print Assumptions C78_hash_table.

(** lookups are accepted if results are taken, a result is ready two cycles after its lookup; an insert is accepted in every cycle without a lookup *)
Theorem C78_hash_table_live : forall KW DW AW lh hash u it a b c e (is : list ht_in) (i j k : ht_in),
  let s := final (ht_step KW DW AW lh hash u) (ht_init DW it a b c e) is in
  let x := (i, snd (ht_step KW DW AW lh hash u s i)) in
  (hi_rr i = true -> ho_lrd (snd x) = true) /\ (h_looked x = true -> ho_ird (snd x) = true -> hi_iv i = false) /\ (h_looked x = false -> ho_ird (snd x) = true) /\
  (h_looked x = true -> ho_rv (snd (ht_step KW DW AW lh hash u (final (ht_step KW DW AW lh hash u) s [i; j]) k)) = true).
Proof. exact ht_live. Qed.
Print Assumptions C78_hash_table_live.

(** a result which is not taken stays *)
Theorem C78_hash_table_stable : forall KW DW AW lh hash u it a b c e (is : list ht_in) (i j : ht_in),
  let s := final (ht_step KW DW AW lh hash u) (ht_init DW it a b c e) is in
  let o := snd (ht_step KW DW AW lh hash u s i) in let o' := snd (ht_step KW DW AW lh hash u (fst (ht_step KW DW AW lh hash u s i)) j) in
  ho_rv o = true -> hi_rr i = false -> ho_rv o' = true /\ ho_res o' = ho_res o.
Proof. exact ht_stable. Qed.
Print Assumptions C78_hash_table_stable.

(** an item is inserted, looked up with its key and with another key of the same hash, and an empty item is looked up *)
Example C78_run : h_results (trace (ht_step 8 8 2 true (fun k => k * 5)%N 0) (ht_init 8 (fun _ => (0, 0, false)%N) 0 0 0 (fun _ => 0%N))
   [mk_hti false 0 true true 3 7 9 true; mk_hti true 7 true false 0 0 0 false; mk_hti true 11 false false 0 0 0 false; mk_hti true 2 false false 0 0 0 false;
    mk_hti true 2 true false 0 0 0 false; mk_hti false 0 true false 0 0 0 false; mk_hti false 0 true false 0 0 0 false; mk_hti false 0 true false 0 0 0 false]) =
  [mk_htr (Some 3%N) 7 9 true true; mk_htr (Some 3%N) 7 9 true false; mk_htr (Some 2%N) 0 0 false false].
Proof. vm_compute. reflexivity. Qed.
