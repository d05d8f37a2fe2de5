From Verif Require Import Base CuckooModel CuckooSpec.
From Coq Require Import NArith.

(** two tables with two slots: slot k mod 2 and slot k/2 mod 2 *)
Definition exh (j : nat) (k : N) : nat := N.to_nat (if j =? 0 then (k mod 2)%N else ((k / 2) mod 2)%N).
Definition exi (c : bool) (d : option N) (i : option (N * nat)) (l : option N) : cu_in nat := mk_cui c d i l true true (fun _ => true) (fun _ => true).
Notation exw := (exi false None None None).
Notation exC := (exi true None None None).
Notation exI k d := (exi false None (Some (k%N, d)) None).
Notation exD k := (exi false (Some k%N) None None).
Notation exL k := (exi false None None (Some k%N)).
Notation exstep := (cu_step 2 2 3 4 exh).
Notation ex0 := (cu_init (fun _ _ => mk_ci 0%N 0 true) 0%N 0 0 true [false; true] false).
(** 4 and 8 fill the slots of 0, then the absent 0 is deleted *)
Notation exbad := (repeat exw 3 ++ [exI 4 14] ++ repeat exw 4 ++ [exI 8 18] ++ repeat exw 4 ++ [exD 0] ++ repeat exw 4 ++ [exL 4; exL 8] ++ repeat exw 4).
(** the insert of 4 moves an item to its other slot, 4, 8 and 12 do not fit to two slots, one of them is popped out *)
Notation exgood := (repeat exw 3 ++ [exI 2 12] ++ repeat exw 4 ++ [exI 8 18] ++ repeat exw 4 ++ [exL 8] ++ repeat exw 4 ++ [exI 4 14] ++ repeat exw 10 ++ [exI 12 22] ++ repeat exw 10 ++
  [exL 2; exL 4; exL 8; exL 12] ++ repeat exw 5 ++ [exD 4] ++ repeat exw 4 ++ [exL 4; exL 8] ++ repeat exw 4).
Notation ext is := (trace exstep (fst (exstep ex0 exC)) is).
Fixpoint dels_b (p : sp nat) (t : list (cu_in nat * cu_out nat)) : bool :=
  match t with [] => true | x :: t' => (a_clean x || match a_del x with Some k => match sp_map p k with Some _ => true | None => false end | None => true end) && dels_b (sp_next p x) t' end.
Lemma dels_dec t : forall p, dels_b p t = true -> dels_ok p t.
Proof.
  induction t as [|x t IH]; intros p; [constructor|]. cbn [dels_b dels_ok]. intros [H1 H2]%andb_prop. split; [|apply IH, H2].
  intros k Hc Hd. rewrite Hc, Hd in H1. destruct (sp_map p k); discriminate.
Qed.
(** keys found by the lookups and results of the inserts *)
Definition exobs (t : list (cu_in nat * cu_out nat)) : list (bool * N * nat) * list (bool * N * nat) :=
  (flat_map (fun x => match g_look x with Some r => [r] | None => [] end) t, flat_map (fun x => match g_ins x with Some r => [r] | None => [] end) t).
Fixpoint law_b (p : sp nat) (t : list (cu_in nat * cu_out nat)) : bool :=
  match t with
  | [] => true
  | x :: t' => match g_look x, sp_q p with Some (f, _, _), (_, e) :: _ => Bool.eqb f (match e with Some _ => true | None => false end) | _, _ => true end && law_b (sp_next p x) t'
  end.
Lemma law_dec t : forall p, cu_law p t -> law_b p t = true.
Proof.
  induction t as [|x t IH]; intros p; [reflexivity|]. cbn [law_b cu_law]. intros [[H _] H2]. rewrite (IH _ H2), andb_true_r.
  destruct (g_look x) as [[[f k] d]|]; [|reflexivity]. destruct (H f k d eq_refl) as [k0 [e [r [-> He]]]]. destruct e; [destruct He as [-> _]|subst f]; reflexivity.
Qed.
Lemma exh_ok j k : j < 2 -> exh j k < 2.
Proof.
  intros _. unfold exh. assert (forall a, N.to_nat (a mod 2)%N < 2) as H. { intros a. pose proof (N.mod_lt a 2 ltac:(discriminate)). lia. }
  destruct (j =? 0); apply H.
Qed.
Lemma cu_bad : exists (TC SZ MR ML : nat) (hash : nat -> N -> nat), 0 < TC /\ 0 < SZ /\ 0 < MR /\ ML - 1 < 2 ^ log2ceil (ML - 1) /\
  (forall j k, j < TC -> hash j k < SZ) /\ exists m k (d : nat) c v tgt f is1 i is2,
  let s1 := final (cu_step TC SZ MR ML hash) (cu_init m k d c v tgt f) is1 in
  a_clean (i, snd (cu_step TC SZ MR ML hash s1 i)) = true /\
  ~ cu_law sp0 (trace (cu_step TC SZ MR ML hash) (fst (cu_step TC SZ MR ML hash s1 i)) is2).
Proof.
  exists 2, 2, 3, 4, exh. split; [lia|]. split; [lia|]. split; [lia|]. split; [vm_compute; lia|]. split; [exact exh_ok|].
  exists (fun _ _ => mk_ci 0%N 0 true), 0%N, 0, 0, true, [false; true], false, [], exC, exbad. cbn [final]. split; [reflexivity|].
  intros H. apply law_dec in H. vm_compute in H. discriminate H.
Qed.
