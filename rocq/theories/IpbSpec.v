(** Accesses of IPIF and what its masters and slaves do. *)
From Verif Require Import Base IpbModel.

Section Spec.
  Context {P U : Type}.
  Notation cyc := (ipb_in P U * ipb_out P U)%type.
  (** an access ends in the cycle in which the slave is selected and acknowledges: request, answer, rdack, wrack *)
  Definition s_acc (c : cyc) : list (P * U * bool * bool) :=
    if bi_cs (fst c) && (bo_rdack (snd c) || bo_wrack (snd c)) then [(bi_p (fst c), bo_u (snd c), bo_rdack (snd c), bo_wrack (snd c))] else [].
  Definition m_acc (c : cyc) : list (P * U * bool * bool) :=
    if bo_cs (snd c) && (bi_rdack (fst c) || bi_wrack (fst c)) then [(bo_p (snd c), bi_u (fst c), bi_rdack (fst c), bi_wrack (fst c))] else [].
  Definition s_accs := flat_map s_acc. Definition m_accs := flat_map m_acc.
  (** the slave acknowledges only while it is selected *)
  Definition slave_ok (c : cyc) : Prop := bi_rdack (fst c) || bi_wrack (fst c) = true -> bo_cs (snd c) = true.
  (** the master keeps the selection and the request until it is acknowledged; [ob]: what it has to keep *)
  Fixpoint master_ok (ob : option P) (t : list cyc) : Prop :=
    match t with
    | [] => True
    | c :: t' => match ob with Some p => bi_cs (fst c) = true /\ bi_p (fst c) = p | None => True end /\
                 master_ok (if bi_cs (fst c) && negb (bo_rdack (snd c) || bo_wrack (snd c)) then Some (bi_p (fst c)) else None) t'
    end.
End Spec.
