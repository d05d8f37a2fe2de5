(** A map from keys to data with the commands of CuckooHashTable. *)
From Verif Require Import Base CuckooModel.
From Coq Require Import NArith.

Section Cuckoo.
  Context {D : Type}.
  Notation cyc := (cu_in D * cu_out D)%type.
  Definition kmap := N -> option D.
  Definition k_empty : kmap := fun _ => None.
  Definition put (m : kmap) (k : N) (d : D) : kmap := fun x => if (x =? k)%N then Some d else m x.
  Definition rem (m : kmap) (k : N) : kmap := fun x => if (x =? k)%N then None else m x.
  (** what is accepted and handed over in a cycle *)
  Definition a_clean (x : cyc) : bool := ui_clean (fst x) && uo_crd (snd x).
  Definition a_del (x : cyc) : option N := if uo_drd (snd x) then ui_del (fst x) else None.
  Definition a_ins (x : cyc) : option (N * D) := if uo_ird (snd x) then ui_ins (fst x) else None.
  Definition a_look (x : cyc) : option N := if uo_lrd (snd x) then ui_look (fst x) else None.
  Definition g_look (x : cyc) : option (bool * N * D) := if ui_lrr (fst x) then uo_lres (snd x) else None.
  Definition g_ins (x : cyc) : option (bool * N * D) := if ui_irr (fst x) then uo_ires (snd x) else None.

  (** the map, the insert which has no result yet, the keys of lookups without result with the right answers *)
  Record sp := mk_sp { sp_map : kmap; sp_ins : option (N * D); sp_q : list (N * option D) }.
  Definition sp_next (p : sp) (x : cyc) : sp :=
    let q1 := match g_look x with Some _ => tl (sp_q p) | None => sp_q p end in
    let q2 := match a_look x with Some k => q1 ++ [(k, sp_map p k)] | None => q1 end in
    if a_clean x then mk_sp k_empty (sp_ins p) q2
    else match a_del x, a_ins x, g_ins x with
    | Some k, _, _ => mk_sp (rem (sp_map p) k) (sp_ins p) q2
    | None, Some kd, _ => mk_sp (sp_map p) (Some kd) q2
    | None, None, Some (pop, rk, _) =>
        match sp_ins p with
        | Some (k, d) => mk_sp (if pop : bool then rem (put (sp_map p) k d) rk else put (sp_map p) k d) None q2
        | None => mk_sp (sp_map p) None q2
        end
    | None, None, None => mk_sp (sp_map p) (sp_ins p) q2
    end.
  (** a lookup finds the key exactly if it is in the map and returns its data; a result of an insert answers an insert and names an item of the map
      with the inserted item, it is removed from the map if pop is set; nothing is accepted during an insert *)
  Definition sp_cycle (p : sp) (x : cyc) : Prop :=
    (forall f k d, g_look x = Some (f, k, d) -> exists k0 e r, sp_q p = (k0, e) :: r /\
       match e with Some d0 => f = true /\ k = k0 /\ d = d0 | None => f = false end) /\
    (forall pop k d, g_ins x = Some (pop, k, d) -> exists k0 d0, sp_ins p = Some (k0, d0) /\ put (sp_map p) k0 d0 k = Some d) /\
    (a_clean x = true \/ a_del x <> None \/ a_ins x <> None \/ a_look x <> None -> sp_ins p = None).
  Fixpoint cu_law (p : sp) (t : list cyc) : Prop := match t with [] => True | x :: t' => sp_cycle p x /\ cu_law (sp_next p x) t' end.
  (** only keys of the map are deleted *)
  Fixpoint dels_ok (p : sp) (t : list cyc) : Prop :=
    match t with [] => True | x :: t' => (forall k, a_clean x = false -> a_del x = Some k -> sp_map p k <> None) /\ dels_ok (sp_next p x) t' end.
  (** all tables accept lookups and show results at once *)
  Definition tables_ready (TC : nat) (i : cu_in D) : Prop := (forall j, j < TC -> t_lrd i j = true) /\ forall j, j < TC -> t_rv i j = true.
  Definition sp0 : sp := mk_sp k_empty None [].
End Cuckoo.
Arguments sp : clear implicits. Arguments kmap : clear implicits.
