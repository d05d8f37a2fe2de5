(** What AvalonMm_to_Axi4 has to do, seen from both of its buses. *)
From Verif Require Import Base StreamSpec AmbModel AmbSpec AvxModel.

Section Spec.
  Context {AD D M : Type}.
  Notation cyc := (avx_in AD D M * avx_out AD D M)%type.
  (** what axi sees *)
  Inductive ev := AR (a : AD) (len : nat) | AW (a : AD) (len : nat) | W (d : D) (m : M) (last : bool).
  Definition evs1 (c : cyc) : list ev :=
    let '(i, o) := c in
    (if y_arv o && x_ar i then [AR (y_addr o) (y_len o)] else []) ++
    (if y_awv o && x_aw i then [AW (y_addr o) (y_len o)] else []) ++
    (if y_wv o && x_w i then [W (y_wd o) (y_ws o) (y_wl o)] else []).
  Definition evs (t : list cyc) : list ev := flat_map evs1 t.
  (** requests accepted from avalon *)
  Definition taken1 (c : cyc) : list (rq (pay AD D M)) := let '(i, o) := c in if asks (x_rq i) && negb (y_wait o) then [x_rq i] else [].
  Definition taken (t : list cyc) : list (rq (pay AD D M)) := flat_map taken1 t.
  (** Transactions for a list of requests: a read is one ar; the first word of a write is an aw and a w, further burstCount - 1 words are only w;
      [left]: missing words of the open write. *)
  Fixpoint axi_of (burst : bool) (left : nat) (l : list (rq (pay AD D M))) : list ev :=
    match l with
    | [] => []
    | (rd, wr, (a, n, d, m)) :: l =>
        let words := if burst then n else 1 in
        if rd then AR a (words - 1) :: axi_of burst left l
        else match left with
             | 0 => AW a (words - 1) :: W d m (words =? 1) :: axi_of burst (words - 1) l
             | S k => W d m (k =? 0) :: axi_of burst k l
             end
    end.
  (** the master does not read and write at once, burstCount is at least 1 and fits in its signal *)
  Definition legal (CW : nat) (i : avx_in AD D M) : Prop :=
    let '(rd, wr, (_, n, _, _)) := x_rq i in ~ (rd = true /\ wr = true) /\ 1 <= n /\ n < 2 ^ CW.
  (** answers *)
  Definition r_axi (c : cyc) : option D := if x_rv (fst c) && y_rr (snd c) then Some (x_rd (fst c)) else None.
  Definition r_avl (c : cyc) : option D := if y_rv (snd c) then Some (y_rd (snd c)) else None.
  (** OKAY, EXOKAY => OKAY (0); SLVERR => SLAVEERROR (2); DECERR => DECODEERROR (3) *)
  Definition b_axi (c : cyc) : option nat := if x_bv (fst c) && y_br (snd c) then Some (if x_bresp (fst c) <? 2 then 0 else x_bresp (fst c)) else None.
  Definition b_avl (c : cyc) : option nat := if y_bv (snd c) then Some (y_resp (snd c)) else None.
End Spec.
Arguments ev : clear implicits.
