(** What the users of the two sides of FlipRegister, FlipCntr and FlipRam see. *)
From Verif Require Import Base FlipModel.

Definition olist {A} (x : option A) : list A := match x with Some a => [a] | None => [] end.

(** the port first is connected to the register number [select], the port second to the other one *)
Section Reg.
  Context {V : Type}.
  Definition fr_reach (r : bool) (i : fr_in V) : list V := olist (if Bool.eqb r (fr_sel i) then fr_w1 i else fr_w2 i).
  (** each port reads the last value written to the register it is connected to, by whichever port *)
  Definition fr_law (v0 : V) (t : list (fr_in V * fr_out V)) : Prop :=
    forall t1 x t2, t = t1 ++ x :: t2 ->
      fr_d1 (snd x) = last (flat_map (fr_reach (fr_sel (fst x))) (map fst t1)) v0 /\
      fr_d2 (snd x) = last (flat_map (fr_reach (negb (fr_sel (fst x)))) (map fst t1)) v0.
End Reg.

Notation fc_cyc := (fc_in * nat)%type.
Definition fc_incrs (t : list fc_cyc) : nat := length (filter (fun x => fc_incr (fst x)) t).
Definition fc_writes (t : list fc_cyc) : list nat := flat_map (fun x => olist (fc_w (fst x))) t.
Definition no_flip (t : list fc_cyc) : Prop := Forall (fun x => fc_do (fst x) = false) t.
(** The user flips in f1 and in f2 and not between. What is read after f2: the value which was left in the counter at f1 (read there, or written
    there) plus all increments from f1 to f2, unless it was overwritten since. *)
Definition fc_law (W : nat) (t : list fc_cyc) : Prop :=
  forall t0 f1 p f2 q y t3, t = t0 ++ f1 :: p ++ f2 :: q ++ y :: t3 ->
    fc_do (fst f1) = true -> no_flip p -> fc_do (fst f2) = true -> no_flip q ->
    snd y = last (fc_writes q) ((last (fc_writes [f1]) (snd f1) + fc_incrs (p ++ [f2])) mod 2 ^ W).

(** FlipRam *)
Section Ram.
  Context {A : Type}.
  Notation cyc := (fm_in A * (option A * option A))%type.
  (** the port (true: first) which is connected to the RAM [r] (false: ram0) in a cycle, and what it writes to address [a] *)
  Definition fm_conn (r : bool) (i : fm_in A) : fm_port A := if Bool.eqb r (negb (fm_sel i)) then fm_f i else fm_s i.
  Definition fm_wr (r : bool) (a : nat) (x : cyc) : list A :=
    let p := fm_conn r (fst x) in if fm_en p && fm_we p && (fm_addr p =? a) then [fm_din p] else [].
  (** A read which a port issues in x (seen in the next cycle y) returns what was last written to the RAM to which the port was connected in x. *)
  Definition fm_read_ok (m0 m1 : nat -> A) (t1 : list cyc) (x y : cyc) : Prop :=
    (fm_en (fm_f (fst x)) = true -> let r := negb (fm_sel (fst x)) in let a := fm_addr (fm_f (fst x)) in
       fst (snd y) = Some (last (flat_map (fm_wr r a) t1) ((if r then m1 else m0) a))) /\
    (fm_en (fm_s (fst x)) = true -> let r := fm_sel (fst x) in let a := fm_addr (fm_s (fst x)) in
       snd (snd y) = Some (last (flat_map (fm_wr r a) t1) ((if r then m1 else m0) a))).
End Ram.
