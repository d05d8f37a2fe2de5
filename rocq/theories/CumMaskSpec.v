(** What the users of the ports of RamCumulativeMask see. *)
From Verif Require Import Base CumMaskModel.

Section Cum.
  Context {B : Type}.
  Notation cyc := (cm_in B * cm_out B)%type.
  (** the write accepted in a cycle *)
  Definition cm_written (x : cyc) : list (cm_wr B) := if w_vld (c_w (fst x)) && co_wrd (snd x) then [c_w (fst x)] else [].
  (** the effect of an accepted write: enabled bytes are replaced; the mask is set to the enable bits, with do_accumulate and without
      do_overwrite they are added to it *)
  Definition wr_data (w : cm_wr B) (m : nat -> nat -> B) (a b : nat) : B := if (a =? w_addr w) && w_we w b then w_din w b else m a b.
  Definition wr_mask (w : cm_wr B) (m : nat -> nat -> bool) (a b : nat) : bool :=
    if a =? w_addr w then w_we w b || (w_acc w && negb (w_ow w) && m a b) else m a b.
  Definition data_after (m : cm_mem B) (t : list cyc) : nat -> nat -> B := fold_left (fun d w => wr_data w d) (flat_map cm_written t) (cm_data m).
  Definition mask_after (m : cm_mem B) (t : list cyc) : nat -> nat -> bool := fold_left (fun d w => wr_mask w d) (flat_map cm_written t) (cm_mask m).
  (** the user keeps an offered write until it is accepted *)
  Definition cm_kept (t : list cyc) : Prop :=
    forall t1 x y t2, t = t1 ++ x :: y :: t2 -> w_vld (c_w (fst x)) = true -> co_wrd (snd x) = false -> c_w (fst y) = c_w (fst x).
  (** the word of the address [a] after the history [t] *)
  Definition cm_shows (nb : nat) (m : cm_mem B) (t : list cyc) (a : nat) (d : option (cm_word B)) : Prop :=
    exists w, d = Some w /\ forall b, b < nb -> fst w b = data_after m t a b /\ snd w b = mask_after m t a b.
End Cum.
