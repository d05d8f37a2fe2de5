(** What the driver of Axi_wDatapump and the memory behind it see. *)
From Verif Require Import Base DpModel DpSpec DpRSpec DpWModel.

Section W.
  Context {B : Type}.
  Variable c : dpcfg.
  Notation word := (list (B * bool)).
  Notation cyc := (wp_in B * wp_out B)%type.

  (** requests taken, bursts issued, words taken from the driver and words given to the bus (with last), responses taken, acknowledges given *)
  Definition wp_taken (x : cyc) : list dreq := if ui_vld (fst x) && uo_rd (snd x) then [ui_req (fst x)] else [].
  Definition wp_offered (x : cyc) : list dreq := if ui_vld (fst x) && negb (uo_rd (snd x)) then [ui_req (fst x)] else [].
  Definition wp_started (t : list cyc) : list dreq := flat_map wp_taken t ++ match rev t with x :: _ => wp_offered x | [] => [] end.
  Definition wp_burst (x : cyc) : list (nat * nat) := if uo_awv (snd x) && ui_awrdy (fst x) then [(uo_addr (snd x), uo_len (snd x))] else [].
  Definition wp_dword (x : cyc) : list (word * bool) := if ui_v (fst x) && uo_rdy (snd x) then [(ui_w (fst x), ui_last (fst x))] else [].
  Definition wp_beat (x : cyc) : list (word * bool) := if uo_v (snd x) && ui_rdy (fst x) then [(uo_w (snd x), uo_last (snd x))] else [].
  Definition wp_resp (x : cyc) : list unit := if ui_bv (fst x) && uo_brdy (snd x) then [tt] else [].
  Definition wp_ack (x : cyc) : list unit := if uo_ack (snd x) && ui_ack (fst x) then [tt] else [].

  (** the bytes which a string of bytes with strobes at the address [a] writes *)
  Fixpoint writes_at (a : nat) (w : word) : list (nat * B) :=
    match w with
    | [] => []
    | (b, s) :: w' => (if s : bool then [(a mod 2 ^ AW c, b)] else []) ++ writes_at (a + 1) w'
    end.
  (** what the bus writes: the i-th word goes to the i-th beat of the bursts *)
  Definition bus_writes (addrs : list nat) (ws : list word) : list (nat * B) := flat_map (fun aw => writes_at (fst aw) (snd aw)) (combine addrs ws).

  (** a request with the words of its frame *)
  Definition frame := (dreq * list word)%type.
  Definition frame_words (f : frame) : list (word * bool) := combine (snd f) (repeat false (q_len (fst f)) ++ [true]).
  (** what the user means by the frame: its bytes one after another from the address of the request *)
  Definition frame_writes (f : frame) : list (nat * B) := writes_at (q_addr (fst f)) (concat (snd f)).
  (** len + 1 words; bytes of the last word which are not in the request are disabled; a legal request (guards of C73); with ALIGNAS over a
      byte only whole words *)
  Definition frame_ok (f : frame) : Prop :=
    length (snd f) = q_len (fst f) + 1 /\ Forall (fun w => length w = WB c) (snd f) /\
    (forall w, nth_error (snd f) (q_len (fst f)) = Some w -> Forall (fun bs => snd bs = false) (skipn (if q_rem (fst f) =? 0 then WB c else q_rem (fst f)) w)) /\
    dreq_ok c (fst f) /\ chunk_aligned c (fst f) /\ fits c (fst f) /\ (AL c = 1 \/ q_addr (fst f) mod WB c = 0).

  (** The driver: offered requests are kept, the requests and the words are those of the frames [fs] in order. *)
  Definition wp_kept (t : list cyc) : Prop :=
    forall t1 x y t2, t = t1 ++ x :: y :: t2 -> ui_vld (fst x) = true -> uo_rd (snd x) = false ->
      ui_vld (fst y) = true /\ ui_req (fst y) = ui_req (fst x).
  Definition wp_driver (fs : list frame) (t : list cyc) : Prop :=
    Forall frame_ok fs /\
    forall t1 t2, t = t1 ++ t2 ->
      (exists more, map fst fs = wp_started t1 ++ more) /\ (exists more, flat_map frame_words fs = flat_map wp_dword t1 ++ more).
  (** guard of the proved part for requests with an offset: the driver offers a word whenever the datapump sends one *)
  Definition wp_busy (t : list cyc) : Prop := Forall (fun x => uo_v (snd x) = true -> ui_v (fst x) = true) t.

  Notation trues l := (length (filter (fun b : bool => b) l)).
  Definition wp_law (fs : list frame) (t : list cyc) : Prop :=
    exists gs rest,
      (* bursts cover exactly the words of the requests *)
      Forall2 (covers c) (flat_map wp_taken t) gs /\ flat_map wp_burst t = flat_map (fun g => g) gs ++ rest /\
      (rest = [] \/ exists t1 x, t = t1 ++ [x] /\ wp_offered x <> [] /\ covers_part c (ui_req (fst x)) rest) /\
      (* words with last follow the bursts *)
      (exists more, flat_map burst_lasts (flat_map wp_burst t) = map snd (flat_map wp_beat t) ++ more) /\
      (* the memory gets what the frames say *)
      (exists more, flat_map frame_writes fs = bus_writes (flat_map (beats (WB c) (AW c)) (flat_map wp_burst t)) (map fst (flat_map wp_beat t)) ++ more) /\
      (* a frame is acknowledged with the response of its last burst, when all of it was sent *)
      length (flat_map wp_resp t) <= trues (map snd (flat_map wp_beat t)) /\
      length (flat_map wp_ack t) = trues (firstn (length (flat_map wp_resp t)) (flat_map (fun g => repeat false (length g - 1) ++ [true]) gs ++ repeat false (length rest))) /\
      (exists more, bus_writes (flat_map (beats (WB c) (AW c)) (flat_map wp_burst t)) (map fst (flat_map wp_beat t)) =
         flat_map frame_writes (firstn (length (flat_map wp_ack t)) fs) ++ more) /\
      (* legal use raises no error *)
      Forall (fun x => uo_err (snd x) = false /\ uo_aerr (snd x) = false) t.
End W.
