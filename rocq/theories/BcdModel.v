(** Models of hwtLib/logic/binToBcd.py and hwtLib/logic/bcdToBin.py.
    A vector of BCD digits is the list of its 4-bit groups, lowest first. *)
From Verif Require Import Base.
Local Open Scope N_scope.

(** handshake inputs of a cycle: din.vld, din.data, dout.rd; outputs: din.rd, dout.vld, dout.data *)
Record bcd_in (A : Type) := mk_bi { bi_vld : bool; bi_data : A; bi_rd : bool }.
Arguments mk_bi {A}. Arguments bi_vld {A}. Arguments bi_data {A}. Arguments bi_rd {A}.
Record bcd_out (B : Type) := mk_bo { bo_rd : bool; bo_vld : bool; bo_data : B }.
Arguments mk_bo {B}. Arguments bo_rd {B}. Arguments bo_vld {B}. Arguments bo_data {B}.

(** * BinToBcd *)
Inductive b2b_st := BIdle | BBusy | BFin.
Record b2b := mk_b2b { b_st : b2b_st; b_bin : N; b_cnt : nat; b_bcd : list N }.

(** bcdp[g], binToBcd.py:91 (4 bit adder) *)
Definition dabble (d : N) : N := if 5 <=? d then (d + 3) mod 16 else d.
(** s = bcdp[g] << 1 | prev >> 3, binToBcd.py:92-99; [prev] is bcdp[g-1], or the top bit of bin_r in bit 3 *)
Fixpoint bcd_shift (prev : N) (ds : list N) : list N :=
  match ds with
  | [] => []
  | d :: ds' => N.lor (N.shiftl (dabble d) 1 mod 16) (N.shiftr prev 3) :: bcd_shift (dabble d) ds'
  end.

(** reset state: bin_r has no reset value; binToBcd.py:50-54, 90.  [D] = DECIMAL_DIGITS *)
Definition b2b_init (D : nat) (bin0 : N) : b2b := mk_b2b BIdle bin0 0 (repeat 0 D).

(** one clock cycle with INPUT_WIDTH = [W], binToBcd.py:56-108 *)
Definition b2b_step (W : nat) (s : b2b) (i : bcd_in N) : b2b * bcd_out (list N) :=
  let st' := match b_st s with
             | BIdle => if bi_vld i then BBusy else BIdle
             | BBusy => if Nat.eqb (b_cnt s) (W - 1) then BFin else BBusy
             | BFin => if bi_rd i then BIdle else BFin
             end in
  let bin' := match b_st s with
              | BIdle => if bi_vld i then bi_data i else b_bin s
              | BBusy => (2 * b_bin s) mod 2 ^ N.of_nat W          (* bin_r[W-1:] . 0 *)
              | BFin => b_bin s
              end in
  let cnt' := match b_st s with BBusy => winc (log2ceil W) (b_cnt s) | _ => 0%nat end in
  let top := N.b2n (N.testbit (b_bin s) (N.of_nat (W - 1))) in
  let bcd' := match b_st s with
              | BIdle => map (fun _ => 0) (b_bcd s)
              | BBusy => bcd_shift (8 * top) (b_bcd s)
              | BFin => b_bcd s
              end in
  (mk_b2b st' bin' cnt' bcd',
   mk_bo (match b_st s with BIdle => true | _ => false end)
         (match b_st s with BFin => true | _ => false end)
         (b_bcd s)).

(** * BcdToBin *)
Inductive d2b_st := DIdle | DLoad | DConv | DDone.
Record d2b := mk_d2b { d_st : d2b_st; d_bcd : list N; d_bin : N; d_cnt : nat }.

(** width of the result, bcdToBin.py:39 (MAX_COUNT, :54) *)
Definition d2b_width (D : nat) : nat := log2ceil (10 ^ D - 1).
(** reset value of bit_count, :55; where MAX_COUNT does not fit into HBits(log2ceil(MAX_COUNT)) the value is cut
    to the register width (the strict from_py of hwt would refuse to elaborate) *)
Definition d2b_cnt0 (D : nat) : nat := wrap (log2ceil (d2b_width D)) (d2b_width D).
Definition d2b_init (D : nat) : d2b := mk_d2b DIdle (repeat 0 D) 0 (d2b_cnt0 D).

(** next_bcd = bcd_sr >> 1 and the corrected digits, :52, :62-66 *)
Definition undabble (d : N) : N := if d <? 7 then d else d - 3.
Fixpoint bcd_unshift (ds : list N) : list N :=
  match ds with
  | [] => []
  | d :: ds' =>
      let up := match ds' with [] => 0 | e :: _ => N.b2n (N.testbit e 0) end in
      undabble (N.shiftr d 1 + 8 * up) :: bcd_unshift ds'
  end.

(** st.next, :79-101 *)
Definition d2b_next (s : d2b) (i : bcd_in (list N)) : d2b_st :=
  match d_st s with
  | DIdle => if bi_vld i then DLoad else DIdle
  | DLoad => DConv
  | DConv => if Nat.eqb (d_cnt s) 0 then DDone else DConv
  | DDone => if bi_vld i && bi_rd i then DLoad else if bi_rd i then DIdle else DDone
  end.

(** one clock cycle, :43-103 *)
Definition d2b_step (D : nat) (s : d2b) (i : bcd_in (list N)) : d2b * bcd_out N :=
  let st' := d2b_next s i in
  let cw := log2ceil (d2b_width D) in
  let cnt' := match st' with DConv => wdec cw (d_cnt s) | _ => d2b_cnt0 D end in
  let bcd' := match st' with DLoad => bi_data i | DConv => bcd_unshift (d_bcd s) | _ => d_bcd s end in
  let lsb := match d_bcd s with [] => 0 | d :: _ => N.b2n (N.testbit d 0) end in
  let bin' := match st' with
              | DLoad => 0
              | DConv => N.shiftr (d_bin s) 1 + lsb * 2 ^ N.of_nat (d2b_width D - 1)  (* Concat(bcd_sr[0], binary_sr[:1]) *)
              | _ => d_bin s
              end in
  (mk_d2b st' bcd' bin' cnt',
   mk_bo (match d_st s with DIdle => true | DDone => bi_rd i | _ => false end)
         (match d_st s with DDone => true | _ => false end)
         (d_bin s)).
