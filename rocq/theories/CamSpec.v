From Verif Require Import Base CamModel.

(** the last write of the history which went to item [i] *)
Definition last_write (h : list cam_in) (i : nat) : option cam_in :=
  find (fun c => c_wvld c && (c_waddr c =? i)) (rev h).
(** item [i] holds [key] and is valid *)
Definition holds (h : list cam_in) (i : nat) (key : N) : Prop :=
  exists c, last_write h i = Some c /\ c_wflag c = true /\ c_wkey c = key.
