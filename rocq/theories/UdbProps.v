(** C157 - bundle of USB descriptors: search, bytes, rom and table of endpoints. *)
From Verif Require Import Base UdbModel UdbSpec UdbProofs UdbCases.

(** the result is the descriptor with the test [p] before which there are exactly k others; no result if there are not so many *)
Theorem C157_search : forall (p : ud -> bool) k ds,
  (forall i d, get_descriptor p k ds = Some (i, d) <-> nth_error ds i = Some d /\ p d = true /\ length (filter p (firstn i ds)) = k) /\
  (get_descriptor p k ds = None <-> length (filter p ds) <= k).
Proof. exact (fun p k ds => conj (fun i d => get_iff p k ds i d) (get_none p k ds)). Qed.

Theorem C157_bytes : forall ds start n, get_descr_bytes ds start n = firstn n (all_bytes (skipn start ds)).
Proof. exact bytes_eq. Qed.

(** the rom has all bytes; the k-th record of a type is the place of the k-th descriptor of the type *)
Theorem C157_rom : forall ds,
  fst (compile_rom ds) = all_bytes ds /\
  forall t, match descriptors_from_rom (snd (compile_rom ds)) t with
            | None => forall d, In d ds -> d_type d <> t
            | Some l => length l = length (filter (fun d => d_type d =? t) ds) /\
                forall k a n, nth_error l k = Some (a, n) ->
                  exists d, nth_error (filter (fun d => d_type d =? t) ds) k = Some d /\ firstn n (skipn a (fst (compile_rom ds))) = d_bytes d
            end.
Proof. exact rom_law. Qed.

(** the table of endpoints, if the numbers of synchronisation types are those of transfer types *)
Theorem C157_endpoints_partial : forall ds l, same_types ds -> get_endpoint_meta ds = Some l -> meta_law ds l.
Proof. exact meta_same. Qed.
(** presence, index, direction and sizes of endpoints for all bundles *)
Theorem C157_sizes : forall ds l a dir, get_endpoint_meta ds = Some l -> 0 < a -> option_map shape (entry l a dir) = option_map shape (want a dir ds).
Proof. exact meta_shape. Qed.
Theorem C157_accepted : forall ds, bundle_ok ds -> exists l, get_endpoint_meta ds = Some l.
Proof. exact meta_total. Qed.
(** the transfer type is taken from the synchronisation type: a bulk endpoint is reported as a control endpoint *)
Theorem C157_type_refuted : exists ds l m, bundle_ok ds /\ get_endpoint_meta ds = Some l /\ of_ep (fun ty _ => ty) 1 true ds = [(2, 64)] /\
  entry l 1 true = Some m /\ em_bulk m = false /\ em_setup m = true /\ ~ meta_law ds l.
Proof. exact type_bad. Qed.

Print Assumptions C157_search. Print Assumptions C157_bytes. Print Assumptions C157_rom. Print Assumptions C157_endpoints_partial.
Print Assumptions C157_sizes. Print Assumptions C157_accepted. Print Assumptions C157_type_refuted.

Example C157_search_case : get_descriptor is_ep 1 ub_ds = Some (3, mk_ud 5 [7; 5; 130; 1] (KEp 2 true 1 1 32)) /\ get_descriptor is_ep 3 ub_ds = None.
Proof. split; vm_compute; reflexivity. Qed.
Example C157_bytes_case : get_descr_bytes ub_ds 1 7 = [9; 2; 7; 5; 1; 1; 7].
Proof. vm_compute. reflexivity. Qed.
Example C157_rom_case : length (fst (compile_rom ub_ds)) = 17 /\ descriptors_from_rom (snd (compile_rom ub_ds)) 5 = Some [(5, 4); (9, 4); (13, 4)] /\
  descriptors_from_rom (snd (compile_rom ub_ds)) 3 = None.
Proof. repeat split; vm_compute; reflexivity. Qed.
Example C157_endpoints_case : bundle_ok ub_ds /\ same_types ub_ds /\ exists l, get_endpoint_meta ub_ds = Some l /\ length l = 3 /\
  entry l 2 true = Some (mk_em 2 true true false false true 48 96) /\ entry l 2 false = None /\ entry l 0 true = Some (mk_em 0 true true false false false 8 16).
Proof. split; [exact ub_ok|]. split; [exact ub_same|]. eexists. repeat split; vm_compute; reflexivity. Qed.
