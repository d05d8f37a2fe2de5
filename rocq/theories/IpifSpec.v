(** What an observer of both buses of Axi4Lite_to_Ipif sees, and which sequences of events are transactions. *)
From Verif Require Import Base IpifModel.

Section Spec.
  Context {AD D M : Type}.
  Inductive event :=
  | AR (a : AD) | AW (a : AD) | W (d : D) (m : M)              (* transfers on ar, aw and w *)
  | IR (a : AD) (d : D) (err : bool)                            (* a read acknowledged on ipif *)
  | IW (a : AD) (d : D) (m : M) (err : bool)                    (* a write acknowledged on ipif *)
  | R (d : option D) (resp : nat) | B (resp : nat).             (* transfers on r and b *)
  Definition when (b : bool) (e : event) : list event := if b then [e] else [].
  (** events of a cycle; the acknowledge precedes the response of the same cycle *)
  Definition events1 (c : ip_in AD D M * ip_out AD D M) : list event :=
    let (i, o) := c in
    when (ii_arv i && io_arrd o) (AR (ii_ar i)) ++ when (ii_awv i && io_awrd o) (AW (ii_aw i)) ++
    when (ii_wv i && io_wrd o) (W (ii_wd i) (ii_ws i)) ++
    when (io_cs o && io_rnw o && ii_rdack i) (IR (io_addr o) (ii_data i) (ii_err i)) ++
    when (io_cs o && negb (io_rnw o) && ii_wrack i) (IW (io_addr o) (io_data o) (io_be o) (ii_err i)) ++
    when (io_rv o && ii_rrd i) (R (io_rd o) (io_rresp o)) ++ when (io_bv o && ii_brd i) (B (io_bresp o)).
  Definition events (t : list (ip_in AD D M * ip_out AD D M)) : list event := flat_map events1 t.
  Definition resp_of (err : bool) : nat := if err then 2 else 0.
  (** complete transactions *)
  Inductive trans : list event -> Prop :=
  | t_nil : trans []
  | t_read a d e l : trans l -> trans (l ++ [AR a; IR a d e; R (Some d) (resp_of e)])
  | t_write a d m e l : trans l -> trans (l ++ [AW a; W d m; IW a d m e; B (resp_of e)]).
  (** one transaction after the other, the last one may be open *)
  Definition serial (l : list event) : Prop := exists done open, l = done ++ open /\ trans done /\
    (open = [] \/ (exists a, open = [AR a]) \/ (exists a d e, open = [AR a; IR a d e]) \/ (exists a, open = [AW a]) \/
     (exists a d m, open = [AW a; W d m]) \/ (exists a d m e, open = [AW a; W d m; IW a d m e])).
  (** the slave acknowledges only while it is selected for that direction *)
  Definition polite (c : ip_in AD D M * ip_out AD D M) : Prop :=
    (ii_rdack (fst c) = true -> io_cs (snd c) = true /\ io_rnw (snd c) = true) /\
    (ii_wrack (fst c) = true -> io_cs (snd c) = true /\ io_rnw (snd c) = false).
  (** master and slave which do not wait: data of writes are there, responses are taken, a selected slave acknowledges *)
  Definition eager (c : ip_in AD D M * ip_out AD D M) : Prop :=
    ii_wv (fst c) = true /\ ii_rrd (fst c) = true /\ ii_brd (fst c) = true /\
    ii_rdack (fst c) = io_cs (snd c) && io_rnw (snd c) /\ ii_wrack (fst c) = io_cs (snd c) && negb (io_rnw (snd c)).
End Spec.
Arguments event : clear implicits.
