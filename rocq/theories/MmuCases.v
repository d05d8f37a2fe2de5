(** Runs of ArrayItemGetter and MMU_2pageLvl. *)
From Verif Require Import Base MmuModel MmuSpec.
From Coq Require Import NArith.
Open Scope N_scope.

Definition cx_mem (a : N) : N := (a * 5 + 1) mod 256.
Lemma cx_mem_ok a : cx_mem a < 256. Proof. unfold cx_mem. apply N.mod_lt. discriminate. Qed.
(** index, answer of the memory *)
Definition cx_g (bytes : nat) (base : N) (idx : option N) (r : option N) (rd : bool) : ag_in :=
  mk_agi base (match idx with Some _ => true | None => false end) (match idx with Some i => i | None => 0 end) true
    (match r with Some _ => true | None => false end) (match r with Some a => le cx_mem a bytes | None => 0 end) rd.
(** items 5 and 2 of the array of four byte items at 64, two items in a word *)
Definition cx_get : list ag_in :=
  [cx_g 8 64 (Some 5) None true; cx_g 8 64 (Some 2) (Some 80) true; cx_g 8 64 None (Some 80) false; cx_g 8 64 None (Some 80) true; cx_g 8 64 None (Some 72) true].
(** item 8 of an array of bytes at 0, eight items in a word; the address of the request is 16 *)
Definition cx_byte : list ag_in := [cx_g 8 0 (Some 8) None true; cx_g 8 0 None None true; cx_g 8 0 None (Some 16) true].

(** addresses of 16 bits, pages of 16 bytes, 16 items in the tables of the second level, one item in a word *)
Definition cx_tbl (a : N) : N := if a =? 0 then 64 else if a =? 1 then 128 else 1.
(** item i of the table at 64 is 32 * i + 256, item 3 of the table at 128 is not mapped *)
Definition cx_pt (a : N) : N :=
  if a mod 2 =? 1 then 1 else if a <? 128 then ((a - 64) / 2 * 32) mod 256 else if a =? 134 then 255 else 16.
Lemma cx_pt_ok a : cx_pt a < 256.
Proof. unfold cx_pt. destruct (_ =? 1); [reflexivity|]. destruct (_ <? _); [apply N.mod_lt; discriminate|]. destruct (_ =? _); reflexivity. Qed.
(** virtual address, answer of the memory, physOut.rd *)
Definition cx_u (v : option N) (r : option N) (prd : bool) : mm_in :=
  mk_mmi (match v with Some _ => true | None => false end) (match v with Some x => x | None => 0 end) prd true
    (match r with Some _ => true | None => false end) (match r with Some a => le cx_pt a 2 | None => 0 end) false 0 0.
Definition cx_step := mm_step 16 4 4 1 8 2 0.
Definition cx_init := mm_init 8 2 (fun x => cx_tbl (N.of_nat x)) 0 0 0 (fun _ => 0) 0 (fun _ => 0) (fun _ => 0).
(** item 3 of the table at 64, item 2 of the table at 128 *)
Definition cx_two : list mm_in :=
  [cx_u (Some 0x037) None true; cx_u (Some 0x129) None true; cx_u None None true; cx_u None (Some 70) true].
Definition cx_rest : list mm_in :=
  [cx_u None (Some 132) true] ++ repeat (cx_u None None true) 8.
Definition cx_withdraw : list mm_in :=
  [cx_u (Some 0x037) None true; cx_u None None true; cx_u None None true; cx_u None (Some 70) false; cx_u (Some 0x537) (Some 70) false; cx_u None (Some 70) false; cx_u None (Some 70) false; cx_u None (Some 70) false].

(** the conditions on the memory, computed *)
Fixpoint servedb (mem : N -> N) (bytes : nat) (pend : list N) (t : list (option N * option N * bool)) : bool :=
  match t with
  | [] => true
  | (q, r, tk) :: t' =>
      match r with Some d => match pend with a :: _ => d =? le mem a bytes | [] => false end | None => true end &&
      servedb mem bytes ((match r with Some _ => if tk then tl pend else pend | None => pend end) ++ match q with Some a => [a] | None => [] end) t'
  end.
Lemma servedb_ok mem bytes t : forall pend, servedb mem bytes pend t = true -> served mem bytes pend t.
Proof.
  induction t as [|[[q r] tk] t IH]; intros pend H; [exact I|]. cbn [servedb served] in *. apply andb_prop in H. destruct H as [H1 H2]. split; [|exact (IH _ H2)].
  destruct r as [d|]; [|exact I]. destruct pend as [|a p]; [discriminate|]. exists a, p. split; [reflexivity|]. apply N.eqb_eq. exact H1.
Qed.
Fixpoint promptb (pend : list N) (t : list (option N * option N * bool)) : bool :=
  match t with
  | [] => true
  | (q, r, tk) :: t' => match pend, r with _ :: _, None => false | _, _ => true end &&
      promptb ((match r with Some _ => if tk then tl pend else pend | None => pend end) ++ match q with Some a => [a] | None => [] end) t'
  end.
Lemma promptb_ok t : forall pend, promptb pend t = true -> prompt pend t.
Proof.
  induction t as [|[[q r] tk] t IH]; intros pend H; [exact I|]. cbn [promptb prompt] in *. apply andb_prop in H. destruct H as [H1 H2]. split; [|exact (IH _ H2)].
  destruct r as [d|]; [discriminate|]. destruct pend; [congruence|discriminate].
Qed.
Lemma cx_byte_served : served cx_mem 8 [] (map g_bus (trace (ag_step 32 1 8 4) (ag_init 4 (fun _ => 0) 0) cx_byte)).
Proof. apply servedb_ok. vm_compute. reflexivity. Qed.
Definition quietb (x : uc) : bool := negb (u_taken x && mi_we (fst x)).
Lemma quietb_ok t : forallb quietb t = true -> Forall u_quiet t.
Proof.
  intros H. apply Forall_forall. intros x Hx Ht. rewrite forallb_forall in H. specialize (H x Hx). unfold quietb in H. rewrite Ht in H. destruct (mi_we (fst x)); [discriminate|reflexivity].
Qed.
Lemma cx_byte_asked : flat_map g_asked (trace (ag_step 32 1 8 4) (ag_init 4 (fun _ => 0) 0) cx_byte) = [(0, 8)].
Proof. vm_compute. reflexivity. Qed.
Lemma cx_byte_got : flat_map g_got (trace (ag_step 32 1 8 4) (ag_init 4 (fun _ => 0) 0) cx_byte) = [81].
Proof. vm_compute. reflexivity. Qed.
Lemma array_of_bytes : exists (AW ks D : nat) (mem : N -> N) (is : list ag_in),
  (2 <= D)%nat /\ (forall a, mem a < 256) /\
  let t := trace (ag_step AW 1 (2 ^ ks) D) (ag_init D (fun _ => 0) 0) is in
  served mem (2 ^ ks) [] (map g_bus t) /\
  (forall p, In p (flat_map g_asked t) -> fst p + snd p < 2 ^ N.of_nat AW) /\
  length (flat_map g_got t) = 1%nat /\
  ~ exists rest, map (fun p => item mem (fst p) 1 (snd p)) (flat_map g_asked t) = flat_map g_got t ++ rest.
Proof.
  exists 32%nat, 3%nat, 4%nat, cx_mem, cx_byte. split; [repeat constructor|]. split; [exact cx_mem_ok|]. change (2 ^ 3)%nat with 8%nat.
  cbv zeta. rewrite cx_byte_asked, cx_byte_got.
  split; [exact cx_byte_served|]. split; [intros p [<-|[]]; reflexivity|]. split; [reflexivity|]. intros [r H]. vm_compute in H. discriminate.
Qed.
