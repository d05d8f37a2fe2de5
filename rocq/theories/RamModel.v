(** Models of hwtLib/mem/ram.py [RamSingleClock] and hwtLib/handshaked/ramAsAddrDataRdVld.py [RamAsAddrDataRdVld]. *)
From Verif Require Import Base.

(** * RamSingleClock *)
Section Ram.
  Context {B : Type}.  (* content of one byte *)

  (** parameters of a port, ram.py:44-66 *)
  Record port_cfg := mk_pc { hasR : bool; hasW : bool; hasBE : bool }.
  (** port.en, port.addr, port.we (one bit per byte with HAS_BE, else one bit), port.din as its bytes *)
  Record port_in := mk_pi { p_en : bool; p_addr : nat; p_we : list bool; p_din : nat -> B }.
  (** ram_memory: byte [b] of the word at address [a] *)
  Definition memory := nat -> nat -> B.

  (** is byte [b] of mem[port.addr] assigned by mem_write in this cycle, ram.py:91-119, 122-146 *)
  Definition byte_we (c : port_cfg) (p : port_in) (b : nat) : bool :=
    p_en p && hasW c && (if hasBE c then nth b (p_we p) false else if hasR c then nth 0 (p_we p) false else true).
  (** all ports write in the order of their declaration, ram.py:186-187 *)
  Definition mem_next (cs : list port_cfg) (ps : list port_in) (m : memory) : memory :=
    fun a b => fold_left (fun v (cp : port_cfg * port_in) =>
                            if byte_we (fst cp) (snd cp) b && (p_addr (snd cp) =? a) then p_din (snd cp) b else v)
                         (combine cs ps) (m a b).
  (** port.dout after the clock edge, ram.py:122-140; [None] = undefined.  mem[port.addr] is the content before the edge. *)
  Definition dout_next (m : memory) (c : port_cfg) (p : port_in) (d : option (nat -> B)) : option (nat -> B) :=
    if hasR c then
      if p_en p then Some (m (p_addr p)) else if hasW c then None else d
    else None.
  (** one clock edge; the output is port.dout of all ports during the cycle *)
  Definition ram_state := (memory * list (option (nat -> B)))%type.
  Definition ram_step (cs : list port_cfg) (s : ram_state) (ps : list port_in) : ram_state * list (option (nat -> B)) :=
    ((mem_next cs ps (fst s),
      map (fun x : (port_cfg * port_in) * option (nat -> B) => dout_next (fst s) (fst (fst x)) (snd (fst x)) (snd x))
          (combine (combine cs ps) (snd s))),
     snd s).
  Definition ram_init (cs : list port_cfg) (m : memory) : ram_state := (m, map (fun _ => None) cs).

  (** delegate_to_children, ram.py:148-177: child [i] has the bytes from i * K on (K = MAX_BLOCK_DATA_WIDTH // 8) of the
      same ports; en, addr (and we without HAS_BE) are shared *)
  Definition child_in (K i : nat) (c : port_cfg) (p : port_in) : port_in :=
    mk_pi (p_en p) (p_addr p) (if hasBE c then firstn K (skipn (i * K) (p_we p)) else p_we p) (fun b => p_din p (i * K + b)).
  (** byte [b] of dout of the composition is byte b mod K of child b / K *)
  Definition join_dout (K : nat) (ds : nat -> option (nat -> B)) (b : nat) : option B :=
    match ds (b / K) with Some w => Some (w (b mod K)) | None => None end.
End Ram.
Arguments port_in : clear implicits. Arguments memory : clear implicits. Arguments ram_state : clear implicits.

(** * RamAsAddrDataRdVld with HAS_R, HAS_W, without HAS_BE, connected to a port of a RAM *)
Section RamHs.
  Context {A : Type}.
  (** inputs of a cycle: r.addr.vld, r.addr.data, r.data.rd, w.vld, w.addr, w.data *)
  Record rh_in := mk_ri { ri_avld : bool; ri_addr : nat; ri_drd : bool; ri_wvld : bool; ri_waddr : nat; ri_wdata : A }.
  (** outputs: r.addr.rd, r.data.vld, r.data.data, w.rd *)
  Record rh_out := mk_ro { ro_ard : bool; ro_dvld : bool; ro_data : A; ro_wrd : bool }.
  (** content and output register of the RAM; readDataPending, readData, readDataOverflow (ramAsAddrDataRdVld.py:70-78) *)
  Record rh_state := mk_rs { rs_mem : nat -> A; rs_dout : A; rs_pend : bool; rs_vld : bool; rs_data : A; rs_ovld : bool; rs_odata : A }.

  (** read_logic and hwImpl, ramAsAddrDataRdVld.py:69-131, and the read/write port of the RAM (ram.py:122-131);
      [u] is the undefined dout of a disabled port *)
  Definition rh_step (u : A) (s : rh_state) (i : rh_in) : rh_state * rh_out :=
    let rdy := ri_drd i in
    let rEn := (negb (rs_ovld s) || rdy) && (negb (rs_vld s) || rdy) in
    let rd_issue := rEn && ri_avld i in
    (* ram port *)
    let en := rd_issue || ri_wvld i in
    let we := negb rd_issue in
    let addr := if rd_issue then ri_addr i else ri_waddr i in
    let mem' := if en && we then upd (rs_mem s) addr (ri_wdata i) else rs_mem s in
    let dout' := if en then rs_mem s addr else u in
    (* :81-99 *)
    let direct := negb (rs_vld s) || rdy in
    let '(vld', data', ovld', odata') :=
      if rs_pend s then
        if direct then (true, rs_dout s, false, rs_odata s) else (rs_vld s, rs_data s, true, rs_dout s)
      else
        if rdy then (rs_ovld s, rs_odata s, false, rs_odata s) else (rs_vld s, rs_data s, rs_ovld s, rs_odata s) in
    (mk_rs mem' dout' (ri_avld i && rEn) vld' data' ovld' odata',
     mk_ro rEn (rs_vld s) (rs_data s) (negb rEn || negb (ri_avld i))).
  (** the data registers have no reset value *)
  Definition rh_init (m : nat -> A) (a b c : A) : rh_state := mk_rs m a false false b false c.
End RamHs.
Arguments rh_in : clear implicits. Arguments rh_out : clear implicits. Arguments rh_state : clear implicits.
