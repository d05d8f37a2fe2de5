From Verif Require Import Base BaseFacts RamModel RamSpec RamProofs.

(** C30: the words handed over are the answers to the accepted addresses, in order, at most two are on the way;
    [answers] uses a memory which performs each accepted write once; no cycle accepts a read and a write. *)
Theorem C30_ram_handshaked : forall (A : Type) (u : A) (m : nat -> A) (a b d : A) (is : list (rh_in A)),
  let t := trace (rh_step u) (rh_init m a b d) is in
  (exists inside, answers m t = handed t ++ inside /\ length inside <= 2) /\
  (forall c, In c t -> ~ (rd_acc c = true /\ wr_acc c = true)).
Proof. exact c30. Qed.
Print Assumptions C30_ram_handshaked.
Example C30_case : let t := trace (rh_step 0) (rh_init (fun a => 100 + a) 0 0 0) ex30 in
  answers (fun a => 100 + a) t = [101; 102; 103; 5] /\ handed t = [101; 102; 103; 5] /\
  map rd_acc t = [true; true; false; false; false; true; false; true; false; false] /\
  map wr_acc t = [false; false; true; false; false; false; true; false; false; false].
Proof. vm_compute. repeat split. Qed.

(** C30: an address is accepted whenever r.data.rd is high or nothing is on the way; an accepted address is answered two
    cycles later. *)
Theorem C30_ram_handshaked_live : forall (A : Type) (u : A) (m : nat -> A) (a b d : A) (is : list (rh_in A)) (i j k : rh_in A),
  let s := final (rh_step u) (rh_init m a b d) is in
  (ri_drd i = true -> ro_ard (snd (rh_step u s i)) = true) /\
  (handed (trace (rh_step u) (rh_init m a b d) is) = answers m (trace (rh_step u) (rh_init m a b d) is) -> ro_ard (snd (rh_step u s i)) = true) /\
  (rd_acc (i, snd (rh_step u s i)) = true ->
   ro_dvld (snd (rh_step u (final (rh_step u) s [i; j]) k)) = true).
Proof. exact c30_live. Qed.
Print Assumptions C30_ram_handshaked_live.

(** C33: a read in a cycle returns byte by byte the last write of the previous cycles (not of this one). *)
Theorem C33_ram_byte_enable : forall (B : Type) (cs : list port_cfg) (m : memory B) (h : list (list (port_in B)))
    (ps nxt : list (port_in B)) (k : nat) (c : port_cfg) (p : port_in B),
  (forall q, In q (h ++ [ps]) -> length q = length cs) ->
  nth_error cs k = Some c -> nth_error ps k = Some p -> hasR c = true -> p_en p = true ->
  exists d, nth_error (snd (ram_step cs (final (ram_step cs) (ram_init cs m) (h ++ [ps])) nxt)) k = Some (Some d) /\
    forall b v, last_written cs h (p_addr p) b (m (p_addr p) b) v -> d b = v.
Proof. exact c33. Qed.
Print Assumptions C33_ram_byte_enable.
Example C33_case :
  match nth_error (snd (final (ram_step ex33_cs) (ram_init ex33_cs (fun _ _ => 0)) ex33_h)) 1 with
  | Some (Some d) => (d 0, d 1) = (10, 21)
  | _ => False
  end /\ (forall q, In q ex33_h -> length q = length ex33_cs) /\
  last_written ex33_cs (firstn 2 ex33_h) 3 0 0 10 /\ last_written ex33_cs (firstn 2 ex33_h) 3 1 0 21.
Proof. exact c33_ex. Qed.

(** C33: splitting the words into blocks of K bytes does not change what is read. *)
Theorem C33_ram_blocks : forall (B : Type) (cs : list port_cfg) (m : memory B) (K : nat) (h : list (list (port_in B))) (k b : nat) (d : option (nat -> B)),
  0 < K ->
  nth_error (snd (final (ram_step cs) (ram_init cs m) h)) k = Some d ->
  join_dout K (fun i => nth k (snd (final (ram_step cs) (ram_init cs (fun a b => m a (i * K + b))) (map (child_cycle cs K i) h))) None) b =
  match d with Some w => Some (w b) | None => None end.
Proof. exact c33_blocks. Qed.
Print Assumptions C33_ram_blocks.
