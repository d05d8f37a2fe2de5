From Verif Require Import Base RamModel.

(** * Handshaked RAM: what an observer sees *)
Section RH.
  Context {A : Type}.
  Definition rd_acc (c : rh_in A * rh_out A) : bool := ri_avld (fst c) && ro_ard (snd c).
  Definition wr_acc (c : rh_in A * rh_out A) : bool := ri_wvld (fst c) && ro_wrd (snd c).
  Definition dat_acc (c : rh_in A * rh_out A) : bool := ro_dvld (snd c) && ri_drd (fst c).
  (** the answers the accepted addresses should get, from a memory which performs each accepted write once *)
  Fixpoint answers (m : nat -> A) (t : list (rh_in A * rh_out A)) : list A :=
    match t with
    | [] => []
    | c :: t' =>
        (if rd_acc c then [m (ri_addr (fst c))] else []) ++
        answers (if wr_acc c then upd m (ri_waddr (fst c)) (ri_wdata (fst c)) else m) t'
    end.
  (** words handed over on r.data *)
  Definition handed (t : list (rh_in A * rh_out A)) : list A :=
    flat_map (fun c => if dat_acc c then [ro_data (snd c)] else []) t.
End RH.

(** * RAM with byte enables *)
Section BE.
  Context {B : Type}.
  (** port [c] writes [v] into byte [b] of address [a] *)
  Definition port_writes (c : port_cfg) (p : port_in B) (a b : nat) (v : B) : Prop :=
    hasW c = true /\ p_en p = true /\ p_addr p = a /\ p_din p b = v /\
    (hasBE c = true -> nth b (p_we p) false = true) /\
    (hasBE c = false -> hasR c = true -> nth 0 (p_we p) false = true).
  Definition writes (cs : list port_cfg) (ps : list (port_in B)) (a b : nat) (v : B) : Prop :=
    exists k c p, nth_error cs k = Some c /\ nth_error ps k = Some p /\ port_writes c p a b v.

  (** [v] is the last value written to byte [b] of address [a]; [v0] if there was no write *)
  Inductive last_written (cs : list port_cfg) (h : list (list (port_in B))) (a b : nat) (v0 v : B) : Prop :=
  | lw_init : v = v0 -> (forall ps x, In ps h -> ~ writes cs ps a b x) -> last_written cs h a b v0 v
  | lw_write h1 ps h2 : h = h1 ++ ps :: h2 -> writes cs ps a b v ->
      (forall x, writes cs ps a b x -> x = v) ->
      (forall ps' x, In ps' h2 -> ~ writes cs ps' a b x) -> last_written cs h a b v0 v.
End BE.
