From Verif Require Import Base BaseFacts AddrModel AddrSpec AddrProofs.
Local Open Scope N_scope.

(** C38, except for the regions which are aligned to their power of two size on both sides and not moved to zero.
    Missing: those, see [C38_remap_refuted]. *)
Theorem C38_remap_partial : forall (AW : N) (mm : list map_item) (a v : N),
  a < 2 ^ AW -> mem_map_ok mm 0 = true -> targets_fit AW mm ->
  (forall m, In m mm -> block (mi_in m) (mi_size m) -> block (mi_out m) (mi_size m) -> mi_out m = 0) ->
  translate_addr_signal AW mm a = Some v -> v = translate_addr_val mm a.
Proof. exact c38. Qed.
Print Assumptions C38_remap_partial.
Example C38_case : translate_addr_signal 16 [mk_mi 4096 4096 0; mk_mi 8192 4096 100; mk_mi 20000 100 10; mk_mi 30000 50 40000] 8197 = Some 105 /\
  mem_map_ok [mk_mi 4096 4096 0; mk_mi 8192 4096 100; mk_mi 20000 100 10; mk_mi 30000 50 40000] 0 = true /\
  translate_addr_signal 16 [mk_mi 4096 4096 0; mk_mi 8192 4096 100; mk_mi 20000 100 10; mk_mi 30000 50 40000] 30007 = Some 40007 /\
  100 mod 4096 <> 0 /\ 10 mod 100 <> 0 /\ 30000 mod 50 = 0 /\ isPow2N 50 = false.
Proof. vm_compute. repeat split; discriminate. Qed.

(** 4 KiB region moved from 0x1000 to 0x2000 on a 32 bit bus: address 0x1004 becomes 0x2000004. *)
Theorem C38_remap_refuted : exists (AW : N) (mm : list map_item) (a v : N),
  a < 2 ^ AW /\ mem_map_ok mm 0 = true /\ targets_fit AW mm /\ translate_addr_signal AW mm a = Some v /\ v <> translate_addr_val mm a.
Proof. exact c38_bad. Qed.
Print Assumptions C38_remap_refuted.

(** C39: steps 2^i and 2^j bits; the destination address is the one of the unit which contains the source bit. *)
Theorem C39_address_step : forall (i j src_w dst_w off src v : N),
  let src_step := 2 ^ i in let dst_step := 2 ^ j in
  src < 2 ^ src_w -> (src_step = dst_step -> src_w <= dst_w) ->
  src * src_step / dst_step + off < 2 ^ dst_w ->
  propagate src_step dst_step src_w dst_w off src = Some v ->
  v = src * src_step / dst_step + off.
Proof. exact c39. Qed.
Print Assumptions C39_address_step.
Example C39_case : propagate 8 32 10 8 5 39 = Some 14 /\ propagate 64 8 4 7 0 9 = Some 72 /\ propagate 8 32 16 8 0 0 = None.
Proof. vm_compute. repeat split. Qed.

(** C38: an accepted map moves an address inside of a region to the same position of the target, and no other address. *)
Theorem C38_translate_value : forall (mm : list map_item) (a : N), mem_map_ok mm 0 = true ->
  (forall m, In m mm -> inside m a -> translate_addr_val mm a = mi_out m + (a - mi_in m)) /\
  ((forall m, In m mm -> ~ inside m a) -> translate_addr_val mm a = a).
Proof. exact c38_val. Qed.
Print Assumptions C38_translate_value.
Example C38_value_case : mem_map_ok [mk_mi 16 8 100; mk_mi 24 4 0] 0 = true /\
  translate_addr_val [mk_mi 16 8 100; mk_mi 24 4 0] 23 = 107 /\ translate_addr_val [mk_mi 16 8 100; mk_mi 24 4 0] 28 = 28.
Proof. vm_compute. repeat split. Qed.
