From Coq Require Import Lia.
From Verif Require Import Base BaseFacts VldCdcModel VldCdcSpec.

Section V.
  Context {A : Type}.
  Notation step := (@vs_step A).

  Definition valid_words (l : list (bool * A)) : list A := flat_map (fun x : bool * A => if fst x then [snd x] else []) l.
  Lemma sent_alternate l : vs_sent (alternate l) = valid_words l.
  Proof.
    induction l as [|[v d] l IH]; [reflexivity|].
    change (alternate ((v, d) :: l)) with ([VIn v d; VOut] ++ alternate l). unfold vs_sent. rewrite flat_map_app. fold (vs_sent (alternate l)).
    rewrite IH. destruct v; reflexivity.
  Qed.
  Lemma valid_app l l' : valid_words (l ++ l') = valid_words l ++ valid_words l'.
  Proof. apply flat_map_app. Qed.

  (** the last three inputs, and the data of the oldest one which is to be seen *)
  Definition vinv (l : list (bool * A)) (s : vs_st A) (got : list A) : Prop :=
    exists done a b c, (vs_vin s, vs_v0 s, vs_v1 s, vs_v2 s) = (fst c, fst c, fst b, fst a) /\
      (fst a = true -> vs_d0 s = snd a) /\ vs_din s = snd c /\
      got = valid_words done /\
      (exists p, length p <= 3 /\ Forall (fun x => fst x = false) p /\ p ++ l = done ++ [a; b; c]).

  Lemma held_cons (x : bool * A) l : held (x :: l) -> held l.
  Proof. intros H k d y H1 H2. apply (H (S k) d y); [exact H1|exact H2]. Qed.

  Lemma held_last3 (p : list (bool * A)) l d a b c x : held (l ++ [x]) -> Forall (fun y => fst y = false) p ->
    p ++ l = d ++ [a; b; c] -> fst b = true -> snd x = snd b.
  Proof.
    intros H Hp E Hb. assert (L : length p + length l = length d + 3) by (rewrite <- !app_length, E, app_length; reflexivity).
    assert (Nb : nth_error (p ++ l) (length d + 1) = Some b).
    { rewrite E, nth_error_app2 by lia. replace (length d + 1 - length d) with 1 by lia. reflexivity. }
    destruct (Nat.lt_ge_cases (length d + 1) (length p)) as [Hlt|Hge].
    - rewrite nth_error_app1 in Nb by exact Hlt. rewrite Forall_forall in Hp. apply nth_error_In in Nb. rewrite (Hp _ Nb) in Hb. discriminate Hb.
    - rewrite nth_error_app2 in Nb by exact Hge. set (k := length d + 1 - length p) in *.
      assert (Nk : nth_error (l ++ [x]) k = Some b).
      { rewrite nth_error_app1; [exact Nb|]. apply nth_error_Some. rewrite Nb. discriminate. }
      assert (k + 2 = length l) by lia.
      destruct b as [vb db]. cbn in Hb. subst vb. apply (H k db x Nk). rewrite H0, nth_error_app2, Nat.sub_diag by lia. reflexivity.
  Qed.

  Lemma alt_step (s : vs_st A) v d : final step s [VIn v d; VOut] = mk_vs v v (vs_v0 s) (vs_v1 s) d (if vs_v1 s then d else vs_d0 s).
  Proof. reflexivity. Qed.
  Lemma alt_out (s : vs_st A) v d : outs step s [VIn v d; VOut] = [None; Some (vs_v2 s, vs_d0 s)].
  Proof. reflexivity. Qed.

  Lemma alternate_app (l l' : list (bool * A)) : alternate (l ++ l') = alternate l ++ alternate l'.
  Proof. apply flat_map_app. Qed.
  Lemma got_app (l l' : list (option (bool * A))) : vs_got (l ++ l') = vs_got l ++ vs_got l'.
  Proof. apply flat_map_app. Qed.
  Lemma held_app_l (l l' : list (bool * A)) : held (l ++ l') -> held l.
  Proof.
    intros H k d x H1 H2. assert (k + 2 < length l) by (apply nth_error_Some; rewrite H2; discriminate).
    apply (H k d x); rewrite nth_error_app1 by lia; assumption.
  Qed.

  Lemma alt_run a0 b0 l : held l -> vinv l (final step (vs_init a0 b0) (alternate l)) (vs_got (outs step (vs_init a0 b0) (alternate l))).
  Proof.
    induction l as [|[v d] l IH] using rev_ind; intros H.
    - exists [], (false, a0), (false, a0), (false, a0). cbn. repeat split; [discriminate|].
      exists [(false, a0); (false, a0); (false, a0)]. repeat split; [auto|repeat constructor].
    - specialize (IH (held_app_l _ _ H)). rewrite alternate_app. cbn [alternate flat_map app fst snd].
      rewrite final_app, outs_app, alt_step, alt_out, got_app.
      set (s := final step (vs_init a0 b0) (alternate l)) in *. set (g := vs_got (outs step (vs_init a0 b0) (alternate l))) in *. clearbody s g.
      destruct IH as (done & a & b & c & Es & Ha & Hc & Hg & p & Lp & Fp & Ep).
      injection Es as E1 E2 E3 E4.
      exists (done ++ [a]), b, c, (v, d). cbn [vs_vin vs_v0 vs_v1 vs_v2 vs_d0 vs_din fst snd].
      split; [rewrite E2, E3; reflexivity|]. split; [|split; [reflexivity|split]].
      + intros Hb. rewrite E3, Hb. apply (held_last3 p l done a b c (v, d) H Fp Ep Hb).
      + rewrite valid_app, Hg. f_equal. rewrite E4. cbn. destruct (fst a) eqn:Ea; [rewrite (Ha eq_refl)|]; reflexivity.
      + exists p. split; [exact Lp|]. split; [exact Fp|]. rewrite app_assoc, Ep, <- !app_assoc. reflexivity.
  Qed.

  Lemma valid_falses (p : list (bool * A)) : Forall (fun x => fst x = false) p -> valid_words p = [].
  Proof. induction 1 as [|x p Hx Hp IH]; [reflexivity|]. cbn. rewrite Hx. exact IH. Qed.

  Lemma app_inj_len {X} (l1 : list X) : forall l2 m1 m2, length l1 = length l2 -> l1 ++ m1 = l2 ++ m2 -> l1 = l2.
  Proof.
    induction l1 as [|x l1 IH]; intros [|y l2] m1 m2 L E; try discriminate L; [reflexivity|].
    injection L as L. injection E as -> E. rewrite (IH l2 m1 m2 L E). reflexivity.
  Qed.

  (** all words but at most the last three *)
  Lemma alt_words a0 b0 l : held l -> exists rest, length rest <= 3 /\
    vs_sent (alternate l) = vs_got (outs step (vs_init a0 b0) (alternate l)) ++ rest.
  Proof.
    intros H. destruct (alt_run a0 b0 l H) as (done & a & b & c & _ & _ & _ & Hg & p & Lp & Fp & Ep).
    exists (valid_words [a; b; c]). split.
    - cbn. destruct (fst a), (fst b), (fst c); cbn; lia.
    - rewrite sent_alternate, Hg, <- valid_app, <- Ep, valid_app, (valid_falses p Fp). reflexivity.
  Qed.
  Lemma alt_drain a0 b0 l (x : A) : held (l ++ repeat (false, x) 3) ->
    vs_got (outs step (vs_init a0 b0) (alternate (l ++ repeat (false, x) 3))) = vs_sent (alternate l).
  Proof.
    intros H. destruct (alt_run a0 b0 _ H) as (done & a & b & c & _ & _ & _ & Hg & p & Lp & Fp & Ep).
    rewrite app_assoc in Ep. change (repeat (false, x) 3) with ([(false, x); (false, x); (false, x)]) in Ep.
    assert (L : length (p ++ l) = length done).
    { apply (f_equal (@length _)) in Ep. rewrite !app_length in Ep. cbn in Ep. rewrite app_length. lia. }
    assert (E : p ++ l = done).
    { apply (app_inj_len _ _ _ _ L Ep). }
    rewrite Hg, <- E, valid_app, (valid_falses p Fp), sent_alternate. reflexivity.
  Qed.
End V.

(** equal clocks, the producer shows other data in the next cycle: the word 1 is seen as 3 *)
Definition ex_vs1 : list (vs_ev nat) := alternate [(true, 1); (false, 2); (false, 3); (false, 4); (false, 5)].
(** dataOut_clk twice as fast, the data are held: the word 1 is seen twice *)
Definition ex_vs2 : list (vs_ev nat) :=
  flat_map (fun x => [VIn (fst x) (snd x); VOut; VOut]) [(true, 1); (false, 1); (false, 1); (false, 1)].
Lemma vs_bad : not_slower ex_vs1 false /\ not_slower ex_vs2 false /\
  vs_sent ex_vs1 = [1] /\ vs_got (outs vs_step (vs_init 0 0) ex_vs1) = [3] /\
  vs_sent ex_vs2 = [1] /\ vs_got (outs vs_step (vs_init 0 0) ex_vs2) = [1; 1].
Proof. repeat split. Qed.
Lemma vs_refuted : exists es : list (vs_ev nat), not_slower es false /\
  ~ exists rest, vs_sent es = vs_got (outs vs_step (vs_init 0 0) es) ++ rest.
Proof. exists ex_vs1. split; [apply vs_bad|]. intros [rest E]. vm_compute in E. discriminate E. Qed.
Definition ex_vs3 : list (bool * nat) := [(true, 1); (false, 1); (false, 1); (true, 2); (false, 9); (false, 2)].
Lemma ex_vs3_held : held (ex_vs3 ++ repeat (false, 0) 3) /\ vs_sent (alternate ex_vs3) = [1; 2].
Proof.
  split; [|reflexivity]. intros k d x. do 9 (destruct k as [|k]; [cbn; intros H1 H2; try discriminate H1; injection H1 as <-; injection H2 as <-; reflexivity|]). destruct k; discriminate.
Qed.
