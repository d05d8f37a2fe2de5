(** Model of the configuration of hwtLib/amba/axi_comp/interconnect/matrix.py [AxiInterconnectMatrix]: how the interconnect is built of AxiInterconnectMatrixR and AxiInterconnectMatrixW. *)
From Verif Require Import Base InterconnectModel.

(** READ, WRITE, READ_WRITE *)
Inductive access := RD | WR | RW.
(** _m[1] == access_type or _m[1] == READ_WRITE, busInterconnect.py:128 *)
Definition allows (a e : access) : bool := match a, e with _, RW => true | RD, RD => true | WR, WR => true | RW, _ => false | _, _ => false end.

Section Matrix.
  (** the order in which python iterates a set with these items *)
  Variable iter : list nat -> list nat.
  (** MASTERS normalized by _normalize_master_configs (busInterconnect.py:22-47; sets are lists, in any order), SLAVES *)
  Variables (MASTERS : list (list (nat * access))) (SLAVES : list (nat * nat)).

  (** masters_connected_to, busInterconnect.py:127-129 *)
  Definition connected_to (a : access) : list (list nat) := map (fun m => map fst (filter (fun e => allows a (snd e)) m)) MASTERS.
  (** sorted() of a set *)
  Definition sorted (l : list nat) : list nat := filter (fun k => memb k l) (seq 0 (S (list_max l))).
  (** slv_index_map, matrix.py:69-70: the position *)
  Fixpoint pos (x : nat) (l : list nat) : nat := match l with [] => 0 | y :: r => if x =? y then 0 else S (pos x r) end.
  (** enumerate, with the index in the second place *)
  Definition numbered (l : list nat) : list (nat * nat) := combine l (seq 0 (length l)).

  (** a sub interconnect: MASTERS, SLAVES; which port of the component (first) is connected to which port of it: for masters, for slaves *)
  Record sub := mk_sub { sb_masters : list (list nat); sb_slaves : list (nat * nat); sb_mc : list (nat * nat); sb_sc : list (nat * nat) }.
  Fixpoint regions_at (l : list nat) : option (list (nat * nat)) :=
    match l with
    | [] => Some []
    | s :: r => match nth_error SLAVES s, regions_at r with Some x, Some y => Some (x :: y) | _, _ => None end
    end.
  (** configure_sub_interconnect, matrix.py:45-90; [None] = exception *)
  Definition configure (master_indexes slave_indexes : list nat) : option sub :=
    match master_indexes, slave_indexes with
    | [], _ | _, [] => None                                                                            (* :57-58 *)
    | _, _ =>
        let per_master := map (fun m_i => filter (fun s => memb s slave_indexes) (map fst (nth m_i MASTERS []))) (iter master_indexes) in  (* :59-65 *)
        let used := sorted (concat per_master) in
        match used with
        | [] => None                                                                                   (* :67 *)
        | _ :: _ =>
            let per_master' := if length used - 1 =? last used 0 then per_master else map (map (fun s => pos s used)) per_master in  (* :69-75 *)
            match regions_at (iter slave_indexes) with
            | None => None
            | Some r => Some (mk_sub per_master' r (numbered (sorted master_indexes)) (numbered used))  (* :77-90 *)
            end
        end
    end.
  Fixpoint configure_all (gs : list (list nat * list nat)) : option (list sub) :=
    match gs with
    | [] => Some []
    | g :: r => match configure (fst g) (snd g), configure_all r with Some x, Some l => Some (x :: l) | _, _ => None end
    end.
  (** the interconnects of one access type, matrix.py:94-97, 106-130 *)
  Definition subs (a : access) : option (list sub) :=
    match separable_groups (connected_to a) with None => None | Some gs => configure_all gs end.
  (** HAS_R / HAS_W of a port: it is in some group, matrix.py:109-110, 121-122, 137-146 *)
  Definition has_slave (a : access) (s : nat) : bool := existsb (memb s) (connected_to a).
  (** hwDeclr, matrix.py:92-146: the interconnects for reads and for writes *)
  Definition elaborate : option (list sub * list sub) :=
    match subs RD, subs WR with
    | Some r, Some w => if forallb (fun s => has_slave RD s || has_slave WR s) (seq 0 (length SLAVES)) then Some (r, w) else None
    | _, _ => None
    end.
End Matrix.
