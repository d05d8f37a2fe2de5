(** Model of hwtLib/clocking/timers.py and of the tick generators of hwtLib/clocking/clkBuilder.py. *)
From Verif Require Import Base AddrModel.

Definition is_none {A} (o : option A) : bool := match o with None => true | _ => false end.
Definition pow2b (t : nat) : bool := isPow2N (N.of_nat t).

(** sorted(..., key=maxVal, reverse=True), timers.py:40-41: stable, largest first *)
Fixpoint insert_timer (x : nat * nat) (l : list (nat * nat)) : list (nat * nat) :=
  match l with
  | [] => [x]
  | y :: l' => if snd x <? snd y then y :: insert_timer x l' else x :: l
  end.
Definition sort_timers (l : list (nat * nat)) : list (nat * nat) := fold_right insert_timer [] l.
(** (id, maxVal) of the timers which take part in the sharing *)
Definition enum_timers (ps : list nat) : list (nat * nat) := combine (seq 0 (length ps)) ps.
Definition sorted_timers (ps : list nat) : list (nat * nat) := sort_timers (filter (fun e => negb (snd e =? 1)) (enum_timers ps)).

(** resolveSharing, timers.py:42-60: the parent (a position in the sorted list) of the i-th timer *)
Definition choose_parent (ms : list nat) (par : nat -> option nat) (i : nat) : option nat :=
  let t := nth i ms 0 in
  if pow2b t then
    find (fun j => (nth j ms 0 mod t =? 0) && is_none (par j)) (seq 0 i)
  else
    find (fun j => (t mod nth j ms 0 =? 0) && negb (match par j with Some q => q =? i | None => false end)) (seq (S i) (length ms - S i)).
Fixpoint resolve_steps (ms : list nat) (is : list nat) (par : nat -> option nat) : nat -> option nat :=
  match is with
  | [] => par
  | i :: is' => resolve_steps ms is' (upd par i (choose_parent ms par i))
  end.
Definition resolve_sharing (ms : list nat) : nat -> option nat := resolve_steps ms (seq 0 (length ms)) (fun _ => None).

Section Timers.
  Variable ms : list nat.              (* maxVal of the sorted timers *)
  Variable par : nat -> option nat.
  Definition mv (i : nat) : nat := nth i ms 0.

  (** reset values of the counters, timers.py:79-83, 184-188; timers without a register of their own have an unused cell *)
  Definition cnt_reload (i : nat) : nat :=
    match par i with
    | None => mv i - 1
    | Some p => mv i / mv p - 1
    end.
  (** timer.cntrRegister, timers.py:70, 79, 103, 184 *)
  Fixpoint cntr_reg (fuel : nat) (c : nat -> nat) (i : nat) : nat :=
    match fuel with
    | 0 => 0
    | S fuel' => match par i with
                 | None => c i
                 | Some p => if mv p =? mv i then cntr_reg fuel' c p
                             else if mv p <? mv i then c i
                             else cntr_reg fuel' c p
                 end
    end.
  (** timer.tick, timers.py:69-107, 119-154, 172-198.  A missing enableSig is the constant 1 and a missing rstSig the constant 0. *)
  Fixpoint tick (fuel : nat) (c : nat -> nat) (en rst : bool) (i : nat) : bool :=
    match fuel with
    | 0 => false
    | S fuel' => match par i with
                 | None => (c i =? 0) && en && negb rst
                 | Some p =>
                     if mv p =? mv i then tick fuel' c en rst p
                     else if mv p <? mv i then
                       let e := tick fuel' c en rst p && en in
                       ((c i =? 0) && e && negb rst) && tick fuel' c en rst p
                     else (cntr_reg fuel' c p mod 2 ^ log2ceil (mv i) =? 0) && en
                 end
    end.
  (** If(rst | (en & tick), reload).Elif(en, r - 1), timers.py:122-149; the register has log2ceil(reload + 1) bits *)
  Definition cnt_next (fuel : nat) (c : nat -> nat) (en rst : bool) (i : nat) : nat :=
    let e := match par i with
             | None => en
             | Some p => tick fuel c en rst p && en
             end in
    if rst || (e && (c i =? 0)) then cnt_reload i
    else if e then wdec (log2ceil (cnt_reload i + 1)) (c i)
    else c i.
End Timers.

(** ClkBuilder.timers(periods, enableSig, rstSig), clkBuilder.py:28-57: input (enable, reset), output the returned ticks *)
Definition timers_step (ps : list nat) (c : nat -> nat) (i : bool * bool) : (nat -> nat) * list bool :=
  let '(en, rst) := i in
  let l := sorted_timers ps in
  let ms := map snd l in
  let par := resolve_sharing ms in
  let fuel := length ms + 2 in
  (cnt_next ms par fuel c en rst,
   map (fun e => if snd e =? 1 then en
                 else match find (fun j => fst (nth j l (0, 0)) =? fst e) (seq 0 (length l)) with
                      | Some j => tick ms par fuel c en rst j
                      | None => false
                      end) (enum_timers ps)).
Definition timers_init (ps : list nat) : nat -> nat :=
  let ms := map snd (sorted_timers ps) in cnt_reload ms (resolve_sharing ms).

(** ClkBuilder.timerDynamic, clkBuilder.py:65-92, DynamicTimerInfo._instantiateTimerTickLogic, timers.py:236-285;
    a register of [w] bits, the period is an input of the same type *)
Section Dynamic.
  Variable w : nat.
  Record dyn_in := mk_di { di_period : nat; di_en : bool; di_rst : bool }.
  (** with enableSig; a missing rstSig is the constant 0, timers.py:264-277 *)
  Definition dyn_step (r : nat) (i : dyn_in) : nat * bool :=
    let t := r =? wdec w (di_period i) in
    (if di_rst i || (di_en i && t) then 0 else if di_en i then winc w r else r,
     t && di_en i && negb (di_rst i)).
  (** without enableSig and rstSig, timers.py:252-262 *)
  Definition dyn_free_step (r : nat) (period : nat) : nat * bool :=
    let t := r =? wdec w period in
    (if t then 0 else wrap w (r + 0), t).
End Dynamic.

(** ClkBuilder.oversample without rstSig, clkBuilder.py:94-131: input (sampleTick, sig), output (oversampled, sampleDoneTick).
    The timer is the one of [timers_step] for one period > 1. *)
Record os_state := mk_os { os_timer : nat; os_cntr : nat }.
Definition os_init (n : nat) : os_state := mk_os (n - 1) 0.
Definition os_step (n : nat) (s : os_state) (i : bool * bool) : os_state * (bool * bool) :=
  let '(st, sig) := i in
  let done := (os_timer s =? 0) && st in
  (mk_os (if st then (if os_timer s =? 0 then n - 1 else wdec (log2ceil n) (os_timer s)) else os_timer s)
         (if done then 0 else if st && sig then winc (log2ceil n + 1) (os_cntr s) else os_cntr s),
   (n / 2 - 1 <? os_cntr s, done)).

(** ClkBuilder.edgeDetector without [last], clkBuilder.py:133-160: output (rising, falling) *)
Definition edge_step (last sig : bool) : bool * (bool * bool) := (sig, (sig && negb last, negb sig && last)).

(** ClkBuilder.reg_path, clkBuilder.py:162-176: the registers from the one next to din to the last one *)
Fixpoint reg_path_next {A} (din : A) (regs : list A) : list A :=
  match regs with [] => [] | r :: regs' => din :: reg_path_next r regs' end.
Definition reg_path_step {A} (regs : list A) (din : A) : list A * A := (reg_path_next din regs, last regs din).
