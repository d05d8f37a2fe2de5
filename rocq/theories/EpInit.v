From Verif Require Import Base BaseFacts EpModel EpSpec EpProofs EpAxi.

Section Init.
  Variable c : epcfg.
  Hypothesis Hc : cfg_ok c.
  Lemma rep_init m : rep c (mk_mems m (fun _ => None)) m.
  Proof. intros k Hk x. reflexivity. Qed.
  Lemma al_all mr aw ar rd ix m is : Forall (fun i => li_aw i < 2 ^ e_aw c /\ li_ar i < 2 ^ e_aw c /\ din_ok c (li_din i)) is ->
    let t := trace (al_step c) (al_init aw ar rd ix m) is in (mr = true -> l_calm c t) -> l_law c mr (l_start m) t.
  Proof. intros HF t Hk. apply (al_run c Hc); [apply rep_init|split; reflexivity|reflexivity|exact HF|exact Hk]. Qed.
  Lemma me_all r ix m is : Forall (fun i => mi_addr i < 2 ^ e_aw c /\ din_ok c (mi_din i)) is -> me_law c m None (trace (me_step c) (me_init r ix m) is).
  Proof. intros HF. apply (me_run c Hc); [apply rep_init|exact HF|reflexivity]. Qed.
  Lemma be_all r ix m is : Forall (fun i => bi_addr i < 2 ^ e_aw c /\ din_ok c (bi_din i)) is -> be_law c m None (trace (be_step c) (be_init r ix m) is).
  Proof. intros HF. apply (be_run c Hc); [apply rep_init|exact HF|exact I]. Qed.
  Lemma av_all ir a my m is : Forall (fun i => vi_addr i < 2 ^ e_aw c /\ din_ok c (vi_din i)) is -> av_law c m None None (trace (av_step c) (av_init ir a my m) is).
  Proof. intros HF. apply (av_run c Hc); [apply rep_init|exact HF|reflexivity|reflexivity]. Qed.
  Lemma ip_all m is : Forall (fun i => pi_addr i < 2 ^ e_aw c /\ din_ok c (pi_din i)) is ->
    let t := trace (ip_step c) (ip_init m) is in ip_kept t -> ip_law c m false t.
  Proof. intros HF t Hk. apply (ip_run c Hc); [apply rep_init|exact HF|exact Hk|reflexivity|exact I]. Qed.
End Init.
