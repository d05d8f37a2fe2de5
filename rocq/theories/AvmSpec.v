(** What an observer of both buses of Axi4_to_AvalonMm sees. *)
From Verif Require Import Base AvmModel.

Section Spec.
  Context {AD ID D M : Type}.
  Notation cyc := (avm_in AD ID D M * avm_out AD ID D M)%type.
  Definition evs {E : Type} (c : cyc -> bool) (v : cyc -> E) (t : list cyc) : list E := flat_map (fun x => if c x then [v x] else []) t.

  (** transfers on the five axi channels: (address, id, len), (data, strb, last), (id, data, last), id *)
  Definition ars : list cyc -> list (AD * ID * nat) := evs (fun c => v_arv (fst c) && o_arrd (snd c)) (fun c => (v_ara (fst c), v_arid (fst c), v_arl (fst c))).
  Definition aws : list cyc -> list (AD * ID * nat) := evs (fun c => v_awv (fst c) && o_awrd (snd c)) (fun c => (v_awa (fst c), v_awid (fst c), v_awl (fst c))).
  Definition ws : list cyc -> list (D * M * bool) := evs (fun c => v_wv (fst c) && o_wrd (snd c)) (fun c => (v_wd (fst c), v_ws (fst c), v_wl (fst c))).
  Definition rs : list cyc -> list (ID * D * bool) := evs (fun c => o_rv (snd c) && v_rrd (fst c)) (fun c => (o_rid (snd c), o_rd (snd c), o_rlast (snd c))).
  Definition bs : list cyc -> list ID := evs (fun c => o_bv (snd c) && v_brd (fst c)) (fun c => o_bid (snd c)).
  (** on avalon: accepted reads (address, burst), accepted words of writes (address, burst, data, byteEnable), returned data *)
  Definition reads : list cyc -> list (AD * nat) := evs (fun c => o_read (snd c) && negb (v_wait (fst c))) (fun c => (o_addr (snd c), o_burst (snd c))).
  Definition beats : list cyc -> list (AD * nat * (D * M)) :=
    evs (fun c => o_write (snd c) && negb (v_wait (fst c))) (fun c => (o_addr (snd c), o_burst (snd c), (o_wd (snd c), o_ws (snd c)))).
  Definition rets : list cyc -> list D := evs (fun c => v_rdv (fst c)) (fun c => v_rdat (fst c)).

  Definition total (l : list nat) : nat := list_sum l.
  (** the read request on avalon for a read request on axi *)
  Definition req (a : AD * ID * nat) : AD * nat := let '(x, _, l) := a in (x, l + 1).
  (** id and last of the words of the answer to a read *)
  Definition answer (a : AD * ID * nat) : list (ID * bool) := let '(_, d, l) := a in repeat (d, false) l ++ [(d, true)].
  (** address and burst of the words on avalon for a write; last of the words on axi *)
  Definition burst (a : AD * ID * nat) : list (AD * nat) := let '(x, _, l) := a in repeat (x, l + 1) (l + 1).
  Definition lasts (a : AD * ID * nat) : list bool := let '(_, _, l) := a in repeat false l ++ [true].
  Definition id_of (a : AD * ID * nat) : ID := snd (fst a).
  Definition mark (x : ID * D * bool) : ID * bool := (fst (fst x), snd x).
  Definition dat (x : ID * D * bool) : D := snd (fst x).
  Definition count (l : list bool) : nat := length (filter (fun b => b) l).

  (** the slave returns only words of reads which it has accepted *)
  Definition returns_ok (t : list cyc) : Prop := forall n, length (rets (firstn n t)) <= total (map snd (reads (firstn n t))).
  (** len is a number of 8 bits *)
  Definition lens_ok (c : cyc) : Prop := v_arl (fst c) < 256 /\ v_awl (fst c) < 256.
  (** a read is offered only if its words and all words not yet delivered fit in the fifo *)
  Definition room_ok (depth : nat) (t : list cyc) : Prop := forall t1 c t2, t = t1 ++ c :: t2 -> v_arv (fst c) = true ->
    length (flat_map answer (ars t1)) + v_arl (fst c) + 1 <= length (rs t1) + depth.
  (** len of an offered read fits in the register which counts the space *)
  Definition short (depth : nat) (c : cyc) : Prop := v_arv (fst c) = true -> v_arl (fst c) < 2 ^ log2ceil (depth + 1).
  (** last is set exactly on the last word of each write *)
  Definition last_ok (t : list cyc) : Prop := exists z, flat_map lasts (aws t) = map snd (ws t) ++ z.
End Spec.
