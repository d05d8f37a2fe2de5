From Verif Require Import Base CuckooModel CuckooSpec CuckooProofs CuckooLive CuckooCases.
From Coq Require Import NArith.

(** C79: after the first clean, CuckooHashTable is a map, as long as only keys which are in it are deleted *)
Theorem C79_cuckoo_map_partial : forall (D : Type) (TC SZ MR ML : nat) (hash : nat -> N -> nat), 0 < TC -> 0 < SZ -> 0 < MR -> ML - 1 < 2 ^ log2ceil (ML - 1) ->
  (forall j k, j < TC -> hash j k < SZ) -> forall m k (d : D) c v tgt f is1 i is2,
  let s1 := final (cu_step TC SZ MR ML hash) (cu_init m k d c v tgt f) is1 in
  a_clean (i, snd (cu_step TC SZ MR ML hash s1 i)) = true ->
  let t := trace (cu_step TC SZ MR ML hash) (fst (cu_step TC SZ MR ML hash s1 i)) is2 in
  dels_ok sp0 t -> cu_law sp0 t.
Proof. exact @cu_all. Qed.
Print Assumptions C79_cuckoo_map_partial.

(** the delete of an absent key can remove another key *)
Theorem C79_cuckoo_delete_refuted : exists (TC SZ MR ML : nat) (hash : nat -> N -> nat), 0 < TC /\ 0 < SZ /\ 0 < MR /\ ML - 1 < 2 ^ log2ceil (ML - 1) /\
  (forall j k, j < TC -> hash j k < SZ) /\ exists m k (d : nat) c v tgt f is1 i is2,
  let s1 := final (cu_step TC SZ MR ML hash) (cu_init m k d c v tgt f) is1 in
  a_clean (i, snd (cu_step TC SZ MR ML hash s1 i)) = true /\
  ~ cu_law sp0 (trace (cu_step TC SZ MR ML hash) (fst (cu_step TC SZ MR ML hash s1 i)) is2).
Proof. exact cu_bad. Qed.
Print Assumptions C79_cuckoo_delete_refuted.

(** each accepted clean, delete and insert ends in a bounded number of cycles if the tables and the reader of the insert results are ready, an insert gets its result *)
Theorem C79_cuckoo_progress_partial : forall (D : Type) (TC SZ MR ML : nat) (hash : nat -> N -> nat), 0 < TC -> 0 < SZ -> 0 < MR -> ML - 1 < 2 ^ log2ceil (ML - 1) ->
  (forall j k, j < TC -> hash j k < SZ) -> forall m k (d : D) c v tgt f is1 i is2 j is3,
  let s1 := final (cu_step TC SZ MR ML hash) (cu_init m k d c v tgt f) is1 in
  a_clean (i, snd (cu_step TC SZ MR ML hash s1 i)) = true ->
  let s2 := final (cu_step TC SZ MR ML hash) (fst (cu_step TC SZ MR ML hash s1 i)) is2 in let x := (j, snd (cu_step TC SZ MR ML hash s2 j)) in
  dels_ok sp0 (trace (cu_step TC SZ MR ML hash) (fst (cu_step TC SZ MR ML hash s1 i)) (is2 ++ [j])) -> a_clean x = true \/ a_del x <> None \/ a_ins x <> None ->
  Forall (fun i => tables_ready TC i /\ ui_irr i = true) is3 -> Nat.max SZ (3 * MR + 1) < length is3 ->
  exists t1 y t2, trace (cu_step TC SZ MR ML hash) (fst (cu_step TC SZ MR ML hash s2 j)) is3 = t1 ++ y :: t2 /\ length t1 <= Nat.max SZ (3 * MR + 1) /\ uo_crd (snd y) = true /\
    (a_clean x = false -> a_del x = None -> a_ins x <> None -> exists z, In z t1 /\ g_ins z <> None).
Proof. exact @cu_live. Qed.
Print Assumptions C79_cuckoo_progress_partial.

(** a run with a moved item, a popped item, a delete and lookups of all of them *)
Example C79_run : a_clean (exC, snd (exstep ex0 exC)) = true /\ dels_ok sp0 (ext exgood) /\
  exobs (ext exgood) =
  ([(true, 8%N, 18); (true, 2%N, 12); (true, 4%N, 14); (true, 8%N, 18); (false, 8%N, 18); (false, 8%N, 18); (true, 8%N, 18)],
   [(false, 2%N, 12); (false, 8%N, 18); (false, 2%N, 12); (true, 12%N, 22)]).
Proof. split; [reflexivity|]. split; [apply dels_dec; vm_compute; reflexivity|]. vm_compute. reflexivity. Qed.
(** the longest insert of this table: ten cycles *)
Example C79_progress_hypotheses : let s := final exstep (fst (exstep ex0 exC)) (repeat exw 3 ++ [exI 4 14] ++ repeat exw 4 ++ [exI 8 18] ++ repeat exw 4) in
  a_ins (exI 12 22, snd (exstep s (exI 12 22))) <> None /\ tables_ready 2 exw /\
  map (fun x => (uo_crd (snd x), g_ins x)) (trace exstep (fst (exstep s (exI 12 22))) (repeat exw 11)) = repeat (false, None) 9 ++ [(false, Some (true, 12%N, 22)); (true, None)].
Proof. split; [vm_compute; discriminate|]. split; [split; reflexivity|]. vm_compute. reflexivity. Qed.
