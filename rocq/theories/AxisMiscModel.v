(** Models of hwtLib/amba/axis_comp/en.py [Axi4S_en], hwtLib/amba/axis_comp/joinPrioritized.py [Axi4SJoinPrioritized],
    hwtLib/handshaked/storedBurst.py [HandshakedStoredBurst] and hwtLib/amba/axis_comp/storedBurst.py [Axi4SStoredBurst]. *)
From Verif Require Import Base JoinSplitModel.

Section AxisEn.
  Context {A : Type}.
  (** dataIn.valid, data with all other signals, dataIn.last, dataOut.ready, en *)
  Record en_in := mk_eni { e_vld : bool; e_data : A; e_last : bool; e_ord : bool; e_en : bool }.
  (** dataIn.ready, dataOut.valid, data, last *)
  Record en_out := mk_eno { e_rd : bool; e_ovld : bool; e_odata : A; e_olast : bool }.

  (** Axi4S_en.hwImpl, en.py:31-46; the state is framePending, initially False *)
  Definition en_step (pending : bool) (i : en_in) : bool * en_out :=
    let ack := e_vld i && e_ord i in
    let data_en := e_en i || pending in
    (if pending && ack then negb (e_last i) else pending,
     mk_eno (e_ord i && data_en) (e_vld i && data_en) (e_data i) (e_last i)).
End AxisEn.
Arguments en_in : clear implicits. Arguments en_out : clear implicits.

Section AxisJoin.
  Context {D : Type}.
  (** the words are (last, other signals) *)
  Notation word := (bool * D)%type.

  (** Axi4SJoinPrioritized.hwImpl, joinPrioritized.py:28-48; the state are the registers en0, en1, ..., all 0 after reset *)
  Definition ajoin_step (x : word) (ens : list bool) (i : join_in word) : list bool * join_out word :=
    let all_0 := negb (any ens) in
    let en := map (fun f => all_0 || f) ens in
    let masked := map (fun p => (fst p && fst (snd p), snd (snd p))) (combine en (j_in i)) in
    let o := join_prio x (mk_jin masked (j_rd i)) in
    let rds := map (fun p => fst p && snd p) (combine en (j_rds o)) in
    let ens' := map (fun p => let '(f, (rd, (v, w))) := p in if rd && v then negb (fst w) else f)
                    (combine ens (combine rds masked)) in
    (ens', mk_jout rds (j_vld o) (j_data o) [] false).
End AxisJoin.

Section StoredBurst.
  Context {A : Type}.
  (** valid, data, last (only the AXI stream version has last) *)
  Record burst_out := mk_bo { b_vld : bool; b_data : A; b_last : bool }.

  (** hwImpl of both components, handshaked/storedBurst.py:56-82 and axis_comp/storedBurst.py:82-109: the state is wordIndex
      of [w] bits, the input is ready, [x] the undefined data after the end.  int(math.log2(n) + 1) = log2 n + 1. *)
  Definition burst_step (repeat : bool) (x : A) (data : list A) (idx : nat) (rd : bool) : nat * burst_out :=
    let n := length data in
    let w := Nat.log2 n + 1 in
    let next := if idx <? n then winc w idx else if repeat then 0 else idx in
    (if rd then next else idx, mk_bo (idx <? n) (nth idx data x) (idx =? n - 1)).

  (** grouper(n, DATA, 0) of hwt: groups of [n] items, the last one padded with [z] *)
  Fixpoint groups (fuel n : nat) (z : A) (l : list A) : list (list A) :=
    match fuel, l with
    | S f, _ :: _ => (firstn n l ++ repeat z (n - length (firstn n l))) :: groups f n z (skipn n l)
    | _, _ => []
    end.

  (** Axi4SStoredBurst with DATA of type bytes, axis_comp/storedBurst.py:61-79: the words for data of [l] with [nb] bytes
      per word (a word is the list of its bytes, first byte first) and the strb of the last word.
      An empty DATA fails because [word] is not defined (:76). *)
  Definition burst_words (nb : nat) (z : A) (l : list A) : option (list (list A)) :=
    match l with
    | [] => None
    | _ => let ws := groups (length l) nb z l in Some (ws ++ [last ws []])
    end.
  Definition mask_bits (nb n : nat) : list bool := map (fun i => i <? n) (seq 0 nb).
  Definition burst_last_strb (nb : nat) (l : list A) : list bool :=
    let m := (length l mod nb) / 8 in
    if m =? 0 then mask_bits nb nb else mask_bits nb m.
  (** strb of a word, :90-96 *)
  Definition burst_strb (nb : nat) (l : list A) (last : bool) : list bool :=
    if last then burst_last_strb nb l else mask_bits nb nb.
End StoredBurst.
Arguments burst_out : clear implicits.
