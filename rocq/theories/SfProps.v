(** C151: the formatter prints the format with its arguments. *)
From Verif Require Import Base BcdModel SfModel SfSpec SfProofs SfCases.

(** For any format, any schedule of the consumer and of the streams and values of the vectors which do not change;
    INPUT_WIDTH of the converter to decimal digits is [W], it has [D] digits. *)
Theorem C151_printed : forall (items : list sf_item) (fw : nat -> nat) (W D : nat) (num : nat -> N) (is : list sf_in) (bin0 : N),
  sf_elaborates items fw W -> 1 <= W -> (2 ^ N.of_nat W <= 10 ^ N.of_nat D)%N -> (forall f, (num f < 2 ^ N.of_nat (fw f))%N) ->
  (forall i, In i is -> forall f, si_num i f = num f) ->
  printed items num (trace (sf_step items fw W) (sf_init D bin0) is).
Proof. intros items fw W D num is bin0 H1 H2 H3 H4. exact (c151 items fw W D num H1 H2 H3 H4 is bin0). Qed.
Print Assumptions C151_printed.
Example C151_printed_case : sf_elaborates ex_items ex_fw 7 /\ (2 ^ 7 <= 10 ^ 3)%N /\ (forall f, (ex_num f < 2 ^ N.of_nat (ex_fw f))%N) /\
  (forall i, In i ex_run -> forall f, si_num i f = ex_num f) /\
  let t := trace (sf_step ex_items ex_fw 7) (sf_init 3 0) ex_run in
  (* n=42,1afhhhi and the beginning of the next one *)
  frames [] (out_words t) = [map Some [110; 61; 52; 50; 44; 49; 97; 102; 104; 104; 104; 105]] /\ rest [] (out_words t) = [Some 110] /\
  in_words 2 t = [(104, false); (104, false); (104, false); (105, true)].
Proof.
  split; [split; [discriminate|split; [|split]]|].
  - repeat constructor; cbn; try lia; discriminate.
  - repeat constructor. intros [].
  - cbn. lia.
  - split; [discriminate|]. split; [|split].
    + intros f. unfold ex_num, ex_fw. destruct (f =? 0); [reflexivity|]. destruct (f =? 1); reflexivity.
    + intros i Hi f. unfold ex_run in Hi. repeat (apply in_app_or in Hi; destruct Hi as [Hi|Hi]); try (apply repeat_spec in Hi; subst i; reflexivity).
      repeat (destruct Hi as [<-|Hi]; [reflexivity|]). destruct Hi.
    + lazy. repeat split; reflexivity.
Qed.

(** With a ready consumer and valid streams at least one character is printed in any W + 2 cycles. *)
Theorem C151_progress : forall (items : list sf_item) (fw : nat -> nat) (W D : nat) (num : nat -> N) (is : list sf_in) (bin0 : N) (js : list sf_in),
  sf_elaborates items fw W -> 1 <= W -> (2 ^ N.of_nat W <= 10 ^ N.of_nat D)%N -> (forall f, (num f < 2 ^ N.of_nat (fw f))%N) ->
  (forall i, In i (is ++ js) -> forall f, si_num i f = num f) ->
  (forall i, In i js -> si_ready i = true /\ forall f, si_valid i f = true) -> W + 2 <= length js ->
  out_words (trace (sf_step items fw W) (final (sf_step items fw W) (sf_init D bin0) is) js) <> [].
Proof. intros items fw W D num is bin0 js H1 H2 H3 H4. exact (c151_progress items fw W D num H1 H2 H3 H4 is bin0 js). Qed.
Print Assumptions C151_progress.
Example C151_progress_case :
  let s := final (sf_step ex_items ex_fw 7) (sf_init 3 0) (repeat (ex_cyc true false 0 false) 2) in
  sf_main s = 1 /\ out_words (trace (sf_step ex_items ex_fw 7) s (repeat (ex_cyc true true 0 false) 8)) = [] /\
  out_words (trace (sf_step ex_items ex_fw 7) s (repeat (ex_cyc true true 0 false) 9)) = [(Some 52, false)].
Proof. lazy. repeat split; reflexivity. Qed.
