(** Model of hwtLib/abstract/busInterconnect.py [BusInterconnectUtils] and [BusInterconnect.getOptimalAddrSize]. *)
From Verif Require Import Base.
Local Open Scope Z_scope.

(** an item of SLAVES: address ([None] = AUTO_ADDR) and size, python integers *)
Definition slave_cfg := (option Z * Z)%type.
Definition region := (Z * Z)%type.  (* address, size *)

(** hwt.math.isPow2: num != 0 and num & (num - 1) == 0 *)
Definition is_pow2 (x : Z) : bool := negb (x =? 0) && (Z.land x (x - 1) =? 0).

(** the loop of _normalize_slave_configs, busInterconnect.py:52-71; [None] = exception. *)
Fixpoint alloc (SLAVES : list slave_cfg) (maxAddr : Z) : option (list region) :=
  match SLAVES with
  | [] => Some []
  | (address, size) :: rest =>
      if is_pow2 size then
        let placed := match address with
                      | None => Some (if maxAddr mod size =? 0 then maxAddr else (maxAddr / size + 1) * size)
                      | Some a => if a mod size =? 0 then Some a else None
                      end in
        match placed with
        | None => None
        | Some a => match alloc rest (Z.max maxAddr (a + size)) with
                    | None => None
                    | Some l => Some ((a, size) :: l)
                    end
        end
      else None
  end.

(** sorted(_slaves, key=lambda x: x[0]), a stable sort *)
Fixpoint insert_region (r : region) (l : list region) : list region :=
  match l with
  | [] => [r]
  | x :: l' => if fst r <=? fst x then r :: l else x :: insert_region r l'
  end.
Definition sort_regions (l : list region) : list region := fold_right insert_region [] l.

(** the collision check, busInterconnect.py:75-82 *)
Fixpoint no_collision (l : list region) (lastAddr : Z) : bool :=
  match l with
  | [] => true
  | (addr, size) :: l' => if lastAddr >=? addr then false else no_collision l' (addr + size - 1)
  end.
(** _assert_non_overlapping, busInterconnect.py:86-91 *)
Fixpoint assert_non_overlapping (l : list region) (offset : Z) : bool :=
  match l with
  | [] => true
  | (addr, size) :: l' => (addr >=? offset) && assert_non_overlapping l' (addr + size)
  end.

(** _normalize_slave_configs followed by _assert_non_overlapping, as in _normalize_config, busInterconnect.py:49-91, 170-178 *)
Definition normalize_slaves (SLAVES : list slave_cfg) : option (list region) :=
  match alloc SLAVES 0 with
  | None => None
  | Some l => if no_collision (sort_regions l) (-1) && assert_non_overlapping (sort_regions l) 0 then Some l else None
  end.

(** getOptimalAddrSize, busInterconnect.py:180-187, for the normalized SLAVES; [None] = exception *)
Definition log2ceilZ (x : Z) : Z := if (x =? 0) || (x =? 1) then 1 else Z.log2_up x.
Definition optimal_addr_size (slaves : list region) (DATA_WIDTH : Z) : option Z :=
  match rev slaves with
  | [] => None
  | last :: _ =>
      let maxAddr := fst last + snd last - DATA_WIDTH / 8 in
      if maxAddr >=? 0 then Some (log2ceilZ maxAddr) else None
  end.

(** * _extract_separable_groups *)
Local Open Scope nat_scope.

(** mem of a set of indexes *)
Definition memb (x : nat) (l : list nat) : bool := existsb (Nat.eqb x) l.

(** slaves_connected_to, busInterconnect.py:127-130: the masters connected to slave [s]; sets are lists, in any order *)
Definition slave_masters (mcon : list (list nat)) (s : nat) : list nat :=
  filter (fun mi => memb s (nth mi mcon [])) (seq 0 (length mcon)).

(** _extract_separable_group, busInterconnect.py:94-117.  The stack m_to_search has its top (end of the python list) first.
    State: seen_m, g_m, g_s.  [fuel] bounds the number of masters which are new; [None] = out of fuel. *)
Record grp := mk_grp { g_seen : list nat; g_m : list nat; g_s : list nat }.
Section Search.
  Variable mcon : list (list nat).
  Fixpoint search (fuel : nat) : list nat -> grp -> option grp :=
    fix pop (m_to_search : list nat) (g : grp) : option grp :=
      match m_to_search with
      | [] => Some g
      | mi :: rest =>
          if memb mi (g_seen g) then pop rest g
          else
            match fuel with
            | 0 => None
            | S fuel' =>
                let slvs := nth mi mcon [] in
                search fuel' (rev (flat_map (slave_masters mcon) slvs) ++ rest)
                       (mk_grp (mi :: g_seen g) (mi :: g_m g) (slvs ++ g_s g))
            end
      end.
  (** _extract_separable_groups, busInterconnect.py:141-150 *)
  Fixpoint groups_from (mis : list nat) (seen : list nat) : option (list (list nat * list nat)) :=
    match mis with
    | [] => Some []
    | mi :: mis' =>
        match search (length mcon) [mi] (mk_grp seen [] []) with
        | None => None
        | Some g =>
            match groups_from mis' (g_seen g) with
            | None => None
            | Some l => Some (match g_m g, g_s g with [], [] => l | _, _ => (g_m g, g_s g) :: l end)
            end
        end
    end.
  Definition separable_groups : option (list (list nat * list nat)) := groups_from (seq 0 (length mcon)) [].
End Search.
