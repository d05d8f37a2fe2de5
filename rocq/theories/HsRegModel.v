(** Model of hwtLib/handshaked/reg.py [HandshakedReg]. *)
From Verif Require Import Base.

Section HsReg.
  Context {A : Type}.

  (** The two kinds of one-word stages: [_impl_latency] (reg.py:50-90) and
      [_implLatencyAndDelay] (reg.py:92-120).  [occ] is isOccupied / wordLoaded,
      [sdat] the data registers (all data signals of the interface packed as one [A]). *)
  Inductive kind := KLat | KDelay.
  Record stage := mk_stage { sk : kind; occ : bool; sdat : A }.

  (** inRd of a stage: reg.py:78-88 (inRd(outRd) if occupied else 1) and reg.py:117. *)
  Definition stage_rd (s : stage) (out_rd : bool) : bool :=
    match sk s with
    | KLat => if occ s then out_rd else true
    | KDelay => negb (occ s)
    end.

  (** Next state of a stage. *)
  Definition stage_next (s : stage) (in_vld : bool) (in_data : A) (out_rd : bool) : stage :=
    match sk s with
    | KLat =>
        (* reg.py:73-88 *)
        let regs_we := if occ s then in_vld && out_rd else in_vld in
        let occ' := if occ s then (if out_rd && negb in_vld then false else occ s) else in_vld in
        mk_stage KLat occ' (if regs_we then in_data else sdat s)
    | KDelay =>
        (* reg.py:99-115 *)
        let occ' := if occ s then negb out_rd else in_vld in
        mk_stage KDelay occ' (if negb (occ s) then in_data else sdat s)
    end.

  (** The stages wired in series (reg.py:219-235 and 250-255); the head is the stage next to
      dataIn.  Result: next stages, dataIn.rd, dataOut.vld, dataOut.data.  The empty list is
      a wire. *)
  Fixpoint chain_step (ss : list stage) (in_vld : bool) (in_data : A) (out_rd : bool)
    : list stage * (bool * bool * A) :=
    match ss with
    | [] => ([], (out_rd, in_vld, in_data))
    | s :: ss' =>
        let '(ss1, (rd1, ov, od)) := chain_step ss' (occ s) (sdat s) out_rd in
        (stage_next s in_vld in_data rd1 :: ss1, (stage_rd s rd1, ov, od))
    end.

  (** [_implReadyChainBreak], reg.py:122-182.  [reader_prio] is one bit, true = 1. *)
  Record brk := mk_brk { oc0 : bool; oc1 : bool; prio : bool; br0 : A; br1 : A }.

  Definition consume0 (s : brk) : bool := (negb (prio s) && oc0 s) || negb (oc1 s). (* :134 *)
  Definition consume1 (s : brk) : bool := (prio s && oc1 s) || negb (oc0 s).        (* :135 *)

  (** [x] stands for the undefined value of o(None), reg.py:158. *)
  Definition brk_step (x : A) (s : brk) (in_vld : bool) (in_data : A) (out_rd : bool)
    : brk * (bool * bool * A) :=
    let r0 := if in_vld && negb (oc0 s) then in_data else br0 s in        (* :142 *)
    let r1 := if in_vld && negb (oc1 s) then in_data else br1 s in        (* :147 *)
    let od := if consume0 s && oc0 s then br0 s
              else if consume1 s && oc1 s then br1 s else x in            (* :153-159 *)
    let prio' := if in_vld && (negb (oc0 s) || negb (oc1 s))              (* :162-168 *)
                 then (if oc0 s then false else if oc1 s then true else prio s)
                 else prio s in
    let oc0_set := in_vld && negb (oc0 s) in                              (* :170-174 *)
    let oc0_clr := out_rd && oc0 s && consume0 s in
    let oc1_set := in_vld && oc0 s && negb (oc1 s) in
    let oc1_clr := out_rd && oc1 s && consume1 s in
    (mk_brk ((oc0 s || oc0_set) && negb oc0_clr) ((oc1 s || oc1_set) && negb oc1_clr) (* :176-177 *)
            prio' r0 r1,
     (negb (oc0 s) || negb (oc1 s), oc0 s || oc1 s, od)).                 (* :179-180 *)

  (** Parameters LATENCY and DELAY, reg.py:39-40: an int or the tuple (1, 2). *)
  Inductive latency := LInt (n : nat) | LBreak.

  Inductive hsreg := RChain (ss : list stage) | RBreak (s : brk).

  (** hwImpl, reg.py:184-257: initial state for LATENCY/DELAY/INIT_DATA, [None] where
      elaboration raises.  [d0] is the unknown content of registers without init value.
      [hasInit] in reg.py:226-230 is set when INIT_DATA[i] exists and never cleared in
      the loop, so from i = 0 on it is true iff INIT_DATA is non-empty. *)
  Definition has_init (init : list A) : bool := match init with [] => false | _ => true end.

  Definition hsreg_init (l : latency) (delay : nat) (init : list A) (d0 : nat -> A) : option hsreg :=
    match l with
    | LBreak =>
        if delay =? 0 then
          match init with
          | [] => Some (RBreak (mk_brk false false false (d0 0) (d0 1)))
          | [x] => Some (RBreak (mk_brk true false false x (d0 1)))
          | _ => None                                                  (* :206-207 *)
          end
        else None                                                      (* :200-201 *)
    | LInt n =>
        if delay =? 0 then
          if (1 <=? n) && (length init <=? n) then                     (* :218; LATENCY=0 leaves outData undefined *)
            Some (RChain (map (fun i => mk_stage KLat (has_init init) (nth i init (d0 i))) (seq 0 n)))
          else None
        else if (n =? 2) && (delay =? 1) then
          match init with
          | [] => Some (RChain [mk_stage KLat false (d0 0); mk_stage KDelay false (d0 1)])
          | [x; y] => Some (RChain [mk_stage KLat true x; mk_stage KDelay true y])
          | _ => None                    (* one item: init1 is unbound (:241-243); more: unpack error *)
          end
        else None                                                      (* :257 *)
    end.

  (** Inputs dataIn.vld, dataIn.data, dataOut.rd; outputs dataIn.rd, dataOut.vld, dataOut.data. *)
  Record hsr_in := mk_hri { ri_vld : bool; ri_data : A; ri_rd : bool }.
  Record hsr_out := mk_hro { ro_rd : bool; ro_vld : bool; ro_data : A }.

  Definition hsreg_step (x : A) (s : hsreg) (i : hsr_in) : hsreg * hsr_out :=
    match s with
    | RChain ss =>
        let '(ss', (rd, v, d)) := chain_step ss (ri_vld i) (ri_data i) (ri_rd i) in
        (RChain ss', mk_hro rd v d)
    | RBreak b =>
        let '(b', (rd, v, d)) := brk_step x b (ri_vld i) (ri_data i) (ri_rd i) in
        (RBreak b', mk_hro rd v d)
    end.
End HsReg.
Arguments stage : clear implicits.
Arguments brk : clear implicits.
Arguments hsreg : clear implicits.
Arguments hsr_in : clear implicits.
Arguments hsr_out : clear implicits.
