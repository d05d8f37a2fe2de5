(** Specification of the DMA: what has to appear on AXI *)
From Verif Require Import Base S2mModel.

Section Spec.
  Context {D : Type} (AW BYTES LEN MAX : nat).
  (** what happened on aw and w: a burst of l + 1 words at an address; a word, with the flag of the last one *)
  Inductive event := Aw (a l : nat) | W (last : bool).
  Definition cycle := (s2m_in D * s2m_out D)%type.
  (** count of bursts, size of burst [k] in words *)
  Definition bursts : nat := (LEN + MAX - 1) / MAX.
  Definition size_of (k : nat) : nat := Nat.min MAX (LEN - k * MAX).
  Definition burst (b k : nat) : list event :=
    Aw ((b + k * MAX * BYTES) mod 2 ^ AW) (size_of k - 1) :: repeat (W false) (size_of k - 1) ++ [W true].
  (** a transfer of LEN words to address [b] *)
  Definition transfer (b : nat) : list event := flat_map (burst b) (seq 0 bursts).

  Definition events (t : list cycle) : list event :=
    flat_map (fun x => (if o_awv (snd x) && i_awr (fst x) then [Aw (o_addr (snd x)) (o_len (snd x))] else []) ++
                       (if o_wv (snd x) && i_wr (fst x) then [W (o_last (snd x))] else [])) t.
  (** words taken from the input, words written *)
  Definition taken (t : list cycle) : list D := flat_map (fun x => if i_vld (fst x) && o_rd (snd x) then [i_data (fst x)] else []) t.
  Definition written (t : list cycle) : list D := flat_map (fun x => if o_wv (snd x) && i_wr (fst x) then [o_data (snd x)] else []) t.
  (** base addresses of transfers: a transfer starts in a cycle with both flags idle and on/off *)
  Definition starts (t : list cycle) : list nat := flat_map (fun x => if o_idle (snd x) && o_on (snd x) then [o_base (snd x)] else []) t.
  (** last value written to a register *)
  Definition last_wr {A} (f : s2m_in D -> option A) (d : A) (is : list (s2m_in D)) : A :=
    fold_left (fun v i => match f i with Some x => x | None => v end) is d.
End Spec.
