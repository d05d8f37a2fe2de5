(** C71, C72: strict order interconnects of the datapumps. *)
From Verif Require Import Base StrictModel StrictSpec StrictProofs.

(** Requests reach the datapump in the order in which they were taken; every read frame goes as a whole, unchanged and in order to the driver
    whose request it answers; no word comes without a request; at most MAX_TRANS_OVERLAP requests are open. *)
Theorem C71_strict_order_read (Q W : Type) (n DEPTH : nat) (x : Q) m0 d0 (is : list (rs_in Q W)) :
  0 < n -> 2 <= DEPTH -> Forall (r_env n) is ->
  r_law n DEPTH (trace (rs_step n DEPTH x) (rs_init n DEPTH m0 d0) is).
Proof. exact (fun Hn HD => r_run n DEPTH x Hn HD m0 d0 is). Qed.
Print Assumptions C71_strict_order_read.
(** While a request is open and the datapump offers data to ready drivers, a word moves in any two cycles. *)
Theorem C71_strict_order_read_data_moves (Q W : Type) (n DEPTH : nat) (x : Q) m0 d0 (is : list (rs_in Q W)) (i i' : rs_in Q W) :
  0 < n -> 2 <= DEPTH -> Forall (r_env n) (is ++ [i; i']) ->
  0 < r_open n (trace (rs_step n DEPTH x) (rs_init n DEPTH m0 d0) is) ->
  (ri_v i = true /\ forall k, ri_rdy i k = true) -> (ri_v i' = true /\ forall k, ri_rdy i' k = true) ->
  let s := final (rs_step n DEPTH x) (rs_init n DEPTH m0 d0) is in
  flat_map rd_from (trace (rs_step n DEPTH x) s [i; i']) <> [].
Proof. exact (fun Hn HD => r_move n DEPTH x Hn HD m0 d0 is i i'). Qed.
Print Assumptions C71_strict_order_read_data_moves.
(** A request is passed on in the cycle in which some driver has one, the datapump is ready and there is space for its order. *)
Theorem C71_strict_order_read_request_moves (Q W : Type) (n DEPTH : nat) (x : Q) m0 d0 (is : list (rs_in Q W)) (i : rs_in Q W) :
  0 < n -> 2 <= DEPTH -> Forall (r_env n) (is ++ [i]) ->
  ri_dprd i = true -> (exists k q, nth_error (ri_req i) k = Some (true, q)) ->
  r_open n (trace (rs_step n DEPTH x) (rs_init n DEPTH m0 d0) is) < DEPTH - 1 ->
  rq_to (i, snd (rs_step n DEPTH x (final (rs_step n DEPTH x) (rs_init n DEPTH m0 d0) is) i)) <> [].
Proof. exact (fun Hn HD => r_req_move n DEPTH x Hn HD m0 d0 is i). Qed.
Print Assumptions C71_strict_order_read_request_moves.
Example C71_example : let t := trace (rs_step 2 4 0) (rs_init 2 4 (fun _ => 0) 0) ex_rs in
  Forall (r_env 2) ex_rs /\ flat_map (rq_from 2) t = [(1, 51); (0, 40)] /\
  flat_map (rd_to 2) t = [(1, (7, false)); (1, (8, true)); (0, (9, true))] /\ r_open 2 (firstn 3 t) = 2.
Proof. repeat constructor. Qed.

(** The frames of the drivers reach the datapump in the order of the requests; each acknowledge goes to the driver of its frame. *)
Theorem C72_strict_order_write (Q W : Type) (n DEPTH : nat) (x : Q) (xw : W) m0 m1 d0 d1 (is : list (ws_in Q W)) :
  0 < n -> 2 <= DEPTH -> Forall (w_env n) is ->
  w_law n DEPTH (trace (ws_step n DEPTH x xw) (ws_init n DEPTH m0 m1 d0 d1) is).
Proof. exact (fun Hn HD => w_run n DEPTH x xw Hn HD m0 m1 d0 d1 is). Qed.
Print Assumptions C72_strict_order_write.
(** A word moves in any two cycles in which the drivers offer data, the datapump is ready, a request is open and less than
    MAX_TRANS_OVERLAP - 1 acknowledges are outstanding; an outstanding acknowledge given by the datapump moves in any two cycles. *)
Theorem C72_strict_order_write_moves (Q W : Type) (n DEPTH : nat) (x : Q) (xw : W) m0 m1 d0 d1 (is : list (ws_in Q W)) (i i' : ws_in Q W) :
  0 < n -> 2 <= DEPTH -> Forall (w_env n) (is ++ [i; i']) ->
  let s := final (ws_step n DEPTH x xw) (ws_init n DEPTH m0 m1 d0 d1) is in
  let t := trace (ws_step n DEPTH x xw) (ws_init n DEPTH m0 m1 d0 d1) is in
  (ends (flat_map wd_to t) < length (flat_map (wq_from n) t) ->
   ends (flat_map wd_to t) < length (flat_map (wa_to n) t) + (DEPTH - 1) ->
   (forall k, fst (fst (wi_w i k)) = true /\ fst (fst (wi_w i' k)) = true) -> wi_rdy i = true -> wi_rdy i' = true ->
   flat_map wd_to (trace (ws_step n DEPTH x xw) s [i; i']) <> []) /\
  (length (flat_map (wa_to n) t) < ends (flat_map wd_to t) ->
   (forall k, wi_ackrd i k = true /\ wi_ackrd i' k = true) -> wi_ack i = true -> wi_ack i' = true ->
   flat_map (wa_to n) (trace (ws_step n DEPTH x xw) s [i; i']) <> []).
Proof. exact (fun Hn HD => w_move n DEPTH x xw Hn HD m0 m1 d0 d1 is i i'). Qed.
Print Assumptions C72_strict_order_write_moves.
Example C72_example : let t := trace (ws_step 2 4 0 0) (ws_init 2 4 (fun _ => 0) (fun _ => 0) 0 0) ex_ws in
  Forall (w_env 2) ex_ws /\ flat_map (wq_from 2) t = [(1, 51); (0, 40)] /\
  flat_map (wd_from 2) t = [(1, (7, false)); (1, (8, true)); (0, (9, true))] /\ flat_map (wa_to 2) t = [1; 0].
Proof. repeat constructor. Qed.
