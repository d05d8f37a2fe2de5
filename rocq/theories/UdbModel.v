(** Model of hwtLib/peripheral/usb/descriptors/bundle.py [UsbDescriptorBundle] (:66-206) and [UsbEndpointMeta] (:17-40). A descriptor is its
    type number (header.bDescriptorType), its bytes (pack_descriptor and HConst_to_byte_list, the same cast, :102-104 and :190-192) and the
    fields which are read from it. [None] is an exception. *)
From Verif Require Import Base.

(** endpoint: bEndpointAddress, bEndpointAddressDir (true is IN), bmAttributes.transferType, .synchronisationType, wMaxPacketSize *)
Inductive ud_kind := KDev (psize : nat) | KEp (addr : nat) (dir : bool) (ty sync mps : nat) | KOther.
Record ud := mk_ud { d_type : nat; d_bytes : list nat; d_kind : ud_kind }.

(** get_descriptor (:80-96); [p] is the test of the type of the descriptor *)
Fixpoint ud_get (p : ud -> bool) (k i : nat) (ds : list ud) : option (nat * ud) :=
  match ds with
  | [] => None
  | d :: ds' => if p d then match k with 0 => Some (i, d) | S k' => ud_get p k' (S i) ds' end else ud_get p k (S i) ds'
  end.
Definition get_descriptor (p : ud -> bool) (k : nat) (ds : list ud) : option (nat * ud) := ud_get p k 0 ds.

(** get_descr_bytes (:106-132): the loop from the descriptor with index start; [n] is remain *)
Fixpoint ud_copy (n : nat) (ds : list ud) : list nat :=
  match ds with
  | [] => []
  | d :: ds' => if n <? length (d_bytes d) then firstn n (d_bytes d)
                else if length (d_bytes d) =? n then d_bytes d
                else d_bytes d ++ ud_copy (n - length (d_bytes d)) ds'
  end.
Definition get_descr_bytes (ds : list ud) (start wLength : nat) : list nat := ud_copy wLength (skipn start ds).

(** compile_rom (:194-206): rom and the dictionary from the type to addresses and sizes *)
Definition rom_step (r : list nat * (nat -> list (nat * nat))) (d : ud) : list nat * (nat -> list (nat * nat)) :=
  let '(rom, tab) := r in
  (rom ++ d_bytes d, upd tab (d_type d) (tab (d_type d) ++ [(length rom, length (d_bytes d))])).
Definition compile_rom (ds : list ud) : list nat * (nat -> list (nat * nat)) := fold_left rom_step ds ([], fun _ => []).
(** get_descriptors_from_rom (:175-187); the dictionary has no empty lists *)
Definition descriptors_from_rom (tab : nat -> list (nat * nat)) (t : nat) : option (list (nat * nat)) :=
  match tab t with [] => None | l => Some l end.

(** UsbEndpointMeta (:22-40) *)
Record ep_meta := mk_em { em_index : nat; em_dir : bool; em_setup : bool; em_bulk : bool; em_int : bool; em_iso : bool; em_mps : nat; em_buf : nat }.
(** endpoints: OUT and IN *)
Definition eps := list (option ep_meta * option ep_meta).
Definition pick (dir : bool) (p : option ep_meta * option ep_meta) : option ep_meta := if dir then snd p else fst p.
Definition put (dir : bool) (p : option ep_meta * option ep_meta) (m : ep_meta) : option ep_meta * option ep_meta :=
  if dir then (fst p, Some m) else (Some m, snd p).
(** transfer types (std.py:317-321) set by :158-168 *)
Definition add_type (m : ep_meta) (t : nat) : option ep_meta :=
  match t with
  | 0 => Some (mk_em (em_index m) (em_dir m) true (em_bulk m) (em_int m) (em_iso m) (em_mps m) (em_buf m))
  | 1 => Some (mk_em (em_index m) (em_dir m) (em_setup m) (em_bulk m) (em_int m) true (em_mps m) (em_buf m))
  | 2 => Some (mk_em (em_index m) (em_dir m) (em_setup m) true (em_int m) (em_iso m) (em_mps m) (em_buf m))
  | 3 => Some (mk_em (em_index m) (em_dir m) (em_setup m) (em_bulk m) true (em_iso m) (em_mps m) (em_buf m))
  | _ => None
  end.
(** :169-170 *)
Definition add_mps (m : ep_meta) (mps : nat) : ep_meta :=
  let x := Nat.max (em_mps m) mps in
  mk_em (em_index m) (em_dir m) (em_setup m) (em_bulk m) (em_int m) (em_iso m) x (x * 2).
Definition set_nth (l : eps) (a : nat) (x : option ep_meta * option ep_meta) : eps := firstn a l ++ x :: skipn (a + 1) l.
(** one descriptor of get_endpoint_meta (:134-173) *)
Definition meta_step (l : eps) (d : ud) : option eps :=
  match d_kind d with
  | KDev ps =>
      match l with
      | [] => Some [(Some (mk_em 0 false true false false false ps (ps * 2)), Some (mk_em 0 true true false false false ps (ps * 2)))]
      | _ => None
      end
  | KEp a dir ty sync mps =>
      if a =? 0 then None
      else
        let l1 := l ++ repeat (None, None) (a + 1 - length l) in
        match nth_error l1 a with
        | None => None
        | Some p =>
            let m := match pick dir p with Some m => m | None => mk_em a dir false false false false 0 0 end in
            match add_type m sync with
            | None => None
            | Some m1 => Some (set_nth l1 a (put dir p (add_mps m1 mps)))
            end
        end
  | KOther => Some l
  end.
Fixpoint meta_run (l : eps) (ds : list ud) : option eps :=
  match ds with
  | [] => Some l
  | d :: ds' => match meta_step l d with Some l' => meta_run l' ds' | None => None end
  end.
Definition get_endpoint_meta (ds : list ud) : option eps := meta_run [] ds.
