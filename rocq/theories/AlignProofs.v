From Verif Require Import Base BaseFacts AlignModel AlignSpec.

Definition opt_bytes (l : word) : list byte_src := flat_map (fun o => match o with None => [] | Some b => [b] end) l.
Lemma opt_bytes_app a b : opt_bytes (a ++ b) = opt_bytes a ++ opt_bytes b.
Proof. apply flat_map_app. Qed.
Lemma opt_bytes_none n : opt_bytes (repeat None n) = [].
Proof. induction n; [reflexivity|]. exact IHn. Qed.
Lemma opt_bytes_some l : opt_bytes (map Some l) = l.
Proof. induction l as [|x l IH]; [reflexivity|]. cbn. f_equal. exact IH. Qed.

Lemma concat_rev_app_last {A} (x : A) rf : concat (rev (app_last x rf)) = concat (rev rf) ++ [x].
Proof. destruct rf as [|w rf]; [reflexivity|]. cbn [app_last rev]. rewrite !concat_app. cbn [concat]. rewrite !app_nil_r, app_assoc. reflexivity. Qed.
Lemma concat_rev_cons {A} (x : A) rf : concat (rev ([x] :: rf)) = concat (rev rf) ++ [x].
Proof. cbn [rev]. rewrite concat_app. reflexivity. Qed.
Lemma concat_rev_pad wb rf : rf <> [] -> concat (rev (pad_last wb rf)) = concat (rev rf) ++ repeat None (wb - length (hd [] rf)).
Proof. destruct rf as [|w rf]; [congruence|]. intros _. cbn [pad_last rev hd]. rewrite !concat_app. cbn [concat]. rewrite !app_nil_r, app_assoc. reflexivity. Qed.

(** ** create_frame *)
Lemma create_loop_ok wb st bc oi : 0 < wb -> forall n k rf lp, (lp = (k + oi) / wb \/ lp = (k + oi) / wb + 1) -> (n = 0 -> rf <> []) ->
  exists rf', create_loop wb st bc oi (seq k n) rf lp = Some rf' /\ rf' <> [] /\
    concat (rev rf') = concat (rev rf) ++ map (fun i => Some (src_info wb st bc oi i)) (seq k n).
Proof.
  intros Hwb. induction n as [|n IH]; intros k rf lp Hlp Hn; cbn [seq create_loop map].
  - exists rf. rewrite app_nil_r. auto.
  - assert ((k + 1 + oi) / wb = (k + oi) / wb \/ (k + 1 + oi) / wb = (k + oi) / wb + 1) as Hs.
    { pose proof (Nat.div_mod (k + oi) wb ltac:(lia)) as D. pose proof (Nat.mod_upper_bound (k + oi) wb ltac:(lia)) as U.
      set (q := (k + oi) / wb) in *. set (r := (k + oi) mod wb) in *. clearbody q r.
      destruct (Nat.eq_dec r (wb - 1)) as [E|E]; [right|left]; symmetry; [apply (Nat.div_unique _ _ (q + 1) 0); [lia|]; nia|apply (Nat.div_unique _ _ q (r + 1)); lia]. }
    replace (S k) with (k + 1) by lia.
    destruct (Nat.eqb_spec ((k + oi) / wb + 1) lp) as [E|E].
    + destruct (IH (k + 1) (app_last (Some (src_info wb st bc oi k)) rf) lp) as (rf' & E1 & E2 & E3); [destruct Hs as [->| ->]; rewrite <- E; auto|destruct rf; discriminate|].
      exists rf'. split; [exact E1|]. split; [exact E2|]. rewrite E3, concat_rev_app_last, <- app_assoc. reflexivity.
    + destruct Hlp as [Hlp|Hlp]; [|congruence]. rewrite Hlp, Nat.eqb_refl.
      destruct (IH (k + 1) ([Some (src_info wb st bc oi k)] :: rf) ((k + oi) / wb + 1)) as (rf' & E1 & E2 & E3); [destruct Hs as [->| ->]; auto|discriminate|].
      exists rf'. split; [exact E1|]. split; [exact E2|]. rewrite E3, concat_rev_cons, <- app_assoc. reflexivity.
Qed.

Lemma src_eq wb st bc oi i : src_info wb st bc oi i = source wb st bc oi i.
Proof. unfold src_info, source. cbv zeta. rewrite (Nat.add_comm i oi). reflexivity. Qed.
Lemma create_frame_ok wb st bc oo oi : oo < wb -> oi < wb -> 0 < bc ->
  exists f pad, create_frame wb st bc oo oi = Some f /\
    concat f = repeat None oo ++ map (fun i => Some (source wb st bc oi i)) (seq 0 bc) ++ repeat None pad /\ pad < wb.
Proof.
  intros Ho Hi Hb. unfold create_frame. destruct (Nat.eqb_spec bc 0); [lia|].
  set (init := if oo =? 0 then ([], 0) else ([repeat None oo], 1)).
  assert (concat (rev (fst init)) = repeat None oo /\ (snd init = (0 + oi) / wb \/ snd init = (0 + oi) / wb + 1)) as [I1 I2].
  { unfold init. rewrite Nat.add_0_l, Nat.div_small by exact Hi. destruct (Nat.eqb_spec oo 0) as [->|]; cbn; [auto|]. rewrite app_nil_r. auto. }
  destruct init as [rf lp]. cbn [fst snd] in *.
  destruct (create_loop_ok wb st bc oi ltac:(lia) bc 0 rf lp I2 ltac:(lia)) as (rf' & E1 & E2 & E3). rewrite E1.
  eexists. exists (wb - length (hd [] rf')). split; [reflexivity|]. rewrite concat_rev_pad by exact E2. rewrite E3, I1, <- app_assoc.
  split; [do 2 f_equal; apply map_ext; intros i; f_equal; apply src_eq|].
  assert (0 < length (hd [] rf')) as Hl; [|lia]. clear - E1 I1 Hb Ho.
  assert (forall is rf lp rf', create_loop wb st bc oi is rf lp = Some rf' -> (is <> [] \/ 0 < length (hd [] rf)) -> 0 < length (hd [] rf')) as K.
  { induction is as [|i is IH]; intros r l r' H Hor; cbn [create_loop] in H; [injection H as <-; destruct Hor; [congruence|assumption]|].
    destruct (_ =? l); [apply IH in H; [exact H|right; destruct r; cbn; rewrite ?app_length; cbn; lia]|].
    destruct (l =? _); [|discriminate]. apply IH in H; [exact H|right; cbn; lia]. }
  apply (K _ _ _ _ E1). left. destruct bc; [lia|discriminate].
Qed.

(** ** join_streams *)
Definition keep (offset : nat) (id : nat * option byte_src) : bool := negb ((offset <=? fst id) && match snd id with None => true | _ => false end).
Definition words_ok (wb : nat) (rf : list word) : Prop :=
  match rf with [] => True | w :: rf' => 0 < length w <= wb /\ Forall (fun w => length w = wb) rf' end.
Lemma join_fold wb offset : 0 < wb -> forall l rf, words_ok wb rf ->
  let rf' := fold_left (join_step wb offset) l rf in
  words_ok wb rf' /\ concat (rev rf') = concat (rev rf) ++ map snd (filter (keep offset) l).
Proof.
  intros Hwb. induction l as [|[i d] l IH]; intros rf Hok; cbn [fold_left filter]; [split; [exact Hok|]; cbn; rewrite app_nil_r; reflexivity|].
  unfold keep at 1. cbn [fst snd]. cbv zeta in *. unfold join_step at 2 4. destruct ((offset <=? i) && _) eqn:E; cbn [negb].
  - apply IH. exact Hok.
  - cbn [map snd]. destruct rf as [|w rf].
    + destruct (IH [[d]]) as [I1 I2]; [cbn; split; [lia|constructor]|]. split; [exact I1|]. rewrite I2. reflexivity.
    + destruct Hok as [O1 O2]. destruct (Nat.eqb_spec (length w) wb) as [El|El].
      * destruct (IH ([d] :: w :: rf)) as [I1 I2]; [cbn; split; [lia|constructor; assumption]|]. split; [exact I1|]. rewrite I2, concat_rev_cons, <- app_assoc. reflexivity.
      * destruct (IH ((w ++ [d]) :: rf)) as [I1 I2]; [cbn; rewrite app_length; cbn; split; [lia|assumption]|]. split; [exact I1|]. rewrite I2.
        change ((w ++ [d]) :: rf) with (app_last d (w :: rf)). rewrite concat_rev_app_last, <- app_assoc. reflexivity.
Qed.
Lemma keep_head offset : forall n k l, k + n <= offset -> map snd (filter (keep offset) (combine (seq k n) l)) = firstn n l.
Proof.
  induction n as [|n IH]; intros k l H; [reflexivity|]. destruct l as [|d l]; [reflexivity|]. cbn [seq combine filter firstn]. unfold keep at 1. cbn [fst snd].
  destruct (Nat.leb_spec offset k); [lia|]. cbn [andb negb map snd]. f_equal. apply IH. lia.
Qed.
Lemma keep_tail offset : forall l k, offset <= k -> map snd (filter (keep offset) (combine (seq k (length l)) l)) = map Some (opt_bytes l).
Proof.
  induction l as [|d l IH]; intros k H; [reflexivity|]. cbn [length seq combine filter]. unfold keep at 1. cbn [fst snd].
  destruct (Nat.leb_spec offset k); [|lia]. destruct d as [b|]; cbn [andb negb map snd opt_bytes flat_map app]; [f_equal|]; apply IH; lia.
Qed.
Lemma combine_app2 {A B} : forall (a b : list A) (c d : list B), length a = length c -> combine (a ++ b) (c ++ d) = combine a c ++ combine b d.
Proof. induction a as [|x a IH]; intros b [|y c] d H; cbn in *; try lia; [reflexivity|]. f_equal. apply IH. lia. Qed.

Lemma join_ok wb sd offset : offset < wb ->
  let bs := bytes_of (concat sd) in
  Forall (fun w => length w = wb) (join_streams wb sd offset) /\
  (offset = 0 -> bs = [] -> join_streams wb sd offset = []) /\
  exists pad, pad < wb /\ concat (join_streams wb sd offset) = repeat None offset ++ map Some bs ++ repeat None pad.
Proof.
  intros Ho bs. unfold join_streams. set (data := concat (map _ sd)).
  assert (opt_bytes data = bs) as Hd.
  { unfold data, bs, bytes_of. fold (opt_bytes (concat (concat sd))). f_equal. clear. induction sd as [|f sd IH]; [reflexivity|]. cbn. rewrite IH, concat_app. reflexivity. }
  rewrite app_length, repeat_length, seq_app. cbn [Nat.add].
  rewrite combine_app2 by (rewrite seq_length, repeat_length; reflexivity).
  destruct (join_fold wb offset ltac:(lia) (combine (seq 0 offset) (repeat None offset) ++ combine (seq offset (length data)) data) []) as [W C]; [exact I|].
  cbv zeta in W, C. set (rf := fold_left _ _ _) in *. clearbody rf. cbn [rev concat app] in C. rewrite filter_app, map_app, keep_head, keep_tail, Hd in C by lia.
  rewrite firstn_all2 in C by (rewrite repeat_length; lia).
  destruct rf as [|w rf].
  - cbn in C. cbn. symmetry in C. apply app_eq_nil in C. destruct C as [C1 C2]. rewrite C1. apply map_eq_nil in C2. rewrite C2. split; [constructor|]. split; [reflexivity|]. exists 0. cbn. split; [lia|reflexivity].
  - destruct W as [W1 W2]. split; [|split].
    + apply Forall_rev. constructor; [rewrite app_length, repeat_length; lia|exact W2].
    + intros E1 E2. exfalso. rewrite E1, E2 in C. cbn in C. apply (f_equal (@length _)) in C. rewrite concat_app, app_length in C. cbn in C. rewrite app_nil_r in C. lia.
    + exists (wb - length w). split; [lia|]. rewrite concat_rev_pad by discriminate. rewrite C. cbn [hd]. rewrite <- app_assoc. reflexivity.
Qed.

(** frames of the streams, one after another *)
Definition frames_of (wb : nat) (l : list (nat * nat * nat * nat)) : list (option (list word)) :=
  map (fun '(st, bc, oo, oi) => create_frame wb st bc oo oi) l.
Lemma join_created wb (l : list (nat * nat * nat * nat)) sd offset : offset < wb ->
  Forall (fun '(st, bc, oo, oi) => oo < wb /\ oi < wb) l ->
  map (fun '(st, bc, oo, oi) => create_frame wb st bc oo oi) l = map Some sd ->
  exists pad, pad < wb /\ concat (join_streams wb sd offset) =
    repeat None offset ++ map Some (flat_map (fun '(st, bc, oo, oi) => map (source wb st bc oi) (seq 0 bc)) l) ++ repeat None pad.
Proof.
  intros Ho Hl He. destruct (join_ok wb sd offset Ho) as (_ & _ & pad & P1 & P2). exists pad. split; [exact P1|]. rewrite P2. do 2 f_equal. f_equal. clear P1 P2.
  revert sd He. induction Hl as [|[[[st bc] oo] oi] l [H1 H2] Hl IH]; intros [|f sd] He; try discriminate; [reflexivity|].
  cbn [map] in He. injection He as Hf He. cbn [concat flat_map]. unfold bytes_of in *. rewrite concat_app, flat_map_app, IH by exact He. f_equal.
  fold (opt_bytes (concat f)). destruct (Nat.eq_dec bc 0) as [->|Hb].
  - unfold create_frame in Hf. cbn in Hf. injection Hf as <-. reflexivity.
  - destruct (create_frame_ok wb st bc oo oi H1 H2 ltac:(lia)) as (f' & p & E & C & _). rewrite E in Hf. injection Hf as <-. rewrite C.
    rewrite !opt_bytes_app, !opt_bytes_none, app_nil_r. cbn [app]. rewrite <- (map_map (source wb st bc oi) Some). apply opt_bytes_some.
Qed.

(** ** next_frame_offsets *)
Lemma NoDup_app_one {A} (l : list A) x : NoDup l -> ~ In x l -> NoDup (l ++ [x]).
Proof.
  intros Hl Hx. induction l as [|y l IH]; cbn [app]; [constructor; [intros []|constructor]|]. inversion Hl as [|? ? H1 H2]; subst. constructor.
  - rewrite in_app_iff. cbn [In]. intros [H|[H|[]]]; [contradiction|]. apply Hx. left. symmetry. exact H.
  - apply IH; [exact H2|]. intros H. apply Hx. right. exact H.
Qed.
Lemma offsets_loop_ok bw dw len_min len_max : 0 < dw -> forall fuel i acc, len_min <= i ->
  (forall o, In o acc <-> exists l, len_min <= l < i /\ o = (l * bw) mod dw) ->
  (match len_max with None => True | Some m => i <= m + 1 \/ i = len_min end) ->
  NoDup acc -> dw + 1 <= fuel + length acc ->
  exists r, offsets_loop fuel bw dw i len_max acc = Some r /\ NoDup r /\ forall o, In o r <-> exists l, len_ok len_min len_max l /\ o = (l * bw) mod dw.
Proof.
  intros Hdw. induction fuel as [|fuel IH]; intros i acc Hi Hacc Hmax Hnd Hf; cbn [offsets_loop].
  - exfalso. assert (length acc <= dw); [|lia]. rewrite <- (seq_length dw 0). apply NoDup_incl_length; [exact Hnd|]. intros o Ho. apply Hacc in Ho. destruct Ho as (l & _ & ->).
    apply in_seq. pose proof (Nat.mod_upper_bound (l * bw) dw ltac:(lia)). lia.
  - destruct (match len_max with None => true | Some m => i <=? m end) eqn:Em.
    + destruct (existsb (Nat.eqb ((i * bw) mod dw)) acc) eqn:Ex.
      * exists acc. split; [reflexivity|]. split; [exact Hnd|]. apply existsb_exists in Ex. destruct Ex as (o & Ho & Eo). apply Nat.eqb_eq in Eo. apply Hacc in Ho. destruct Ho as (j & Hj & Ej).
        intros o'. rewrite Hacc. split.
        -- intros (l & Hl & El). exists l. split; [|exact El]. unfold len_ok. split; [lia|]. destruct len_max as [m|]; [|exact I]. apply Nat.leb_le in Em. lia.
        -- intros (l & [Hl _] & El). (* periodic with i - j *)
           assert (forall n l, l < i + n -> len_min <= l -> exists l', len_min <= l' < i /\ (l * bw) mod dw = (l' * bw) mod dw) as K.
           { clear - Ej Eo Hj Hdw. induction n as [|n IH]; intros l H1 H2; [exists l; split; [lia|reflexivity]|].
             destruct (le_lt_dec i l) as [L|L]; [|exists l; split; [lia|reflexivity]].
             destruct (IH (l - (i - j)) ltac:(lia) ltac:(lia)) as (l' & L1 & L2). exists l'. split; [exact L1|]. rewrite <- L2.
             replace (l * bw) with ((l - i) * bw + i * bw) by (rewrite <- Nat.mul_add_distr_r; f_equal; lia).
             replace ((l - (i - j)) * bw) with ((l - i) * bw + j * bw) by (rewrite <- Nat.mul_add_distr_r; f_equal; lia).
             rewrite (Nat.add_mod _ (i * bw)), (Nat.add_mod _ (j * bw)) by lia. congruence. }
           destruct (K (S l) l ltac:(lia) Hl) as (l' & L1 & L2). exists l'. split; [exact L1|]. congruence.
      * apply IH.
        -- lia.
        -- intros o. rewrite in_app_iff, Hacc. cbn [In]. split.
           ++ intros [(l & Hl & El)|[<-|[]]]; [exists l; split; [lia|exact El]|exists i; split; [lia|reflexivity]].
           ++ intros (l & Hl & El). destruct (Nat.eq_dec l i) as [->|]; [right; left; congruence|left; exists l; split; [lia|exact El]].
        -- destruct len_max as [m|]; [|exact I]. apply Nat.leb_le in Em. lia.
        -- apply NoDup_app_one; [exact Hnd|]. intros Hin. assert (existsb (Nat.eqb ((i * bw) mod dw)) acc = true) as T; [|congruence].
           apply existsb_exists. exists ((i * bw) mod dw). split; [exact Hin|apply Nat.eqb_refl].
        -- rewrite app_length. cbn. lia.
    + exists acc. split; [reflexivity|]. split; [exact Hnd|]. intros o. rewrite Hacc. destruct len_max as [m|]; [|discriminate]. apply Nat.leb_gt in Em. unfold len_ok.
      split; intros (l & Hl & El); exists l; (split; [|exact El]); lia.
Qed.

Lemma next_offsets_ok bw dw len_min len_max : 0 < dw ->
  exists r, next_frame_offsets bw dw len_min len_max = Some r /\ NoDup r /\ forall o, In o r <-> exists l, len_ok len_min len_max l /\ o = (l * bw) mod dw.
Proof.
  intros H. unfold next_frame_offsets. apply offsets_loop_ok; auto.
  - intros o. cbn. split; [intros []|]. intros (l & Hl & _). lia.
  - destruct len_max; [right; reflexivity|exact I].
  - constructor.
  - cbn. lia.
Qed.
Lemma create_bytes wb st bc oo oi : oo < wb -> oi < wb ->
  exists f, create_frame wb st bc oo oi = Some f /\ bytes_of f = map (source wb st bc oi) (seq 0 bc).
Proof.
  intros Ho Hi. destruct (Nat.eq_dec bc 0) as [->|Hb]; [exists []; split; reflexivity|].
  destruct (create_frame_ok wb st bc oo oi Ho Hi ltac:(lia)) as (f & p & E & C & _). exists f. split; [exact E|]. unfold bytes_of. fold (opt_bytes (concat f)). rewrite C.
  rewrite !opt_bytes_app, !opt_bytes_none, app_nil_r. cbn [app]. rewrite <- (map_map (source wb st bc oi) Some). apply opt_bytes_some.
Qed.
