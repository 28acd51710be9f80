(** * Proofs: offsets, order independence, forgetting the past, byte-level effects *)
From Verif Require Import Runtime Spec VarintFacts OffsetsFacts RecFacts DecodeFacts DecodeClass SetFacts GetFacts IterFacts Fuel Api ApiFacts ApiInv Core Core2.
From Coq Require Import ZifyBool.

(** ** C14 *)
Lemma off_run_ok ops : forall o s n,
  owf o -> zlen (oa o) = n -> (forall f, 0 <= f < n -> ofun o f = if s f =? 0 then None else Some (s f)) ->
  Forall (off_ok n) ops ->
  exists o', off_run o ops = Ok o' /\ owf o' /\ zlen (oa o') = n /\
    (forall f, 0 <= f < n -> ofun o' f = if fold_left off_step ops s f =? 0 then None else Some (fold_left off_step ops s f)).
Proof.
  induction ops as [|[f x|] ops IH]; intros o s n Hwf Hn Hs Hok; cbn [off_run fold_left].
  - exists o. auto.
  - apply Forall_cons in Hok as [[Hf Hx] Hok].
    destruct (offsets_set_ok o f x Hwf) as (o1 & He & Hwf1 & Hl1 & Hf1 & Hg1 & _); [unfold in_range; lia|assumption|].
    rewrite He. cbn [rbind]. apply IH; try assumption; [lia|].
    intros g Hg. cbn [off_step]. destruct (Z.eqb_spec g f) as [->|Hne]; [exact Hf1|]. rewrite Hg1 by exact Hne. apply Hs, Hg.
  - apply Forall_cons in Hok as [_ Hok]. destruct (offsets_clear_ok o) as (Hwf1 & Hl1 & Hf1 & _).
    apply IH; try assumption; [lia|]. intros g Hg. rewrite Hf1. reflexivity.
Qed.

Lemma offsets_map n ops :
  Forall (off_ok (Z.of_nat n)) ops ->
  exists o, off_run (offsets_zero n) ops = Ok o /\
    (forall f, 0 <= f < Z.of_nat n -> offsets_get o f = Ok (off_spec ops f, negb (off_spec ops f =? 0))) /\
    (forall f, ~ 0 <= f < Z.of_nat n -> offsets_get o f = Panic) /\
    (forall f, 0 <= f < Z.of_nat n ->
       (oa o !! Z.to_nat f = Some 65535 <-> exists m, om o = Some m /\ m !! f = Some (off_spec ops f)) /\
       (oa o !! Z.to_nat f = Some 65535 <-> 65534 < off_spec ops f)) /\
    (forall m f, om o = Some m -> is_Some (m !! f) -> 0 <= f < Z.of_nat n).
Proof.
  intros Hok. destruct (offsets_zero_ok n) as (Hwf & Hl & Hf).
  destruct (off_run_ok ops (offsets_zero n) (fun _ => 0) (Z.of_nat n)) as (o & He & Hwf' & Hl' & Hs); try assumption.
  { intros f _. rewrite Hf. reflexivity. }
  fold (off_spec ops) in Hs. exists o. split; [exact He|].
  assert (Hget : forall f, 0 <= f < Z.of_nat n -> offsets_get o f = Ok (off_spec ops f, negb (off_spec ops f =? 0))).
  { intros f Hr. pose proof (offsets_get_eq o f Hwf' ltac:(unfold in_range; lia)) as Hg. rewrite (Hs f Hr) in Hg.
    destruct (Z.eqb_spec (off_spec ops f) 0) as [E|]; [rewrite E|]; exact Hg. }
  assert (Hb : forall f, 0 <= f < Z.of_nat n -> 0 <= off_spec ops f).
  { intros f Hr. destruct (Z.eqb_spec (off_spec ops f) 0) as [E|E]; [lia|].
    pose proof (ofun_pos o f (off_spec ops f) Hwf' ltac:(unfold in_range; lia)) as Hp. rewrite (Hs f Hr) in Hp.
    replace (off_spec ops f =? 0) with false in Hp by lia. specialize (Hp eq_refl). lia. }
  destruct Hwf' as (Hcell & Hmap & Hval).
  assert (Hsent : forall f, 0 <= f < Z.of_nat n ->
     oa o !! Z.to_nat f = Some 65535 <-> exists m, om o = Some m /\ m !! f = Some (off_spec ops f)).
  { intros f Hr. split.
    - intros Hc. destruct (proj2 (Hmap f)) as [x Hx]; [split; [lia|exact Hc]|].
      pose proof (Hget f Hr) as Hg. unfold offsets_get in Hg. rewrite (arr_get_ok _ _ _ (proj1 Hr) Hc) in Hg. cbn [rbind] in Hg.
      unfold mget in Hx. destruct (om o) as [m|]; [|discriminate]. exists m. split; [reflexivity|].
      cbn in Hg. rewrite Hx in Hg. cbn in Hg. injection Hg as Hg _. rewrite Hx, Hg. reflexivity.
    - intros (m & Hm & Hx). apply Hmap. unfold mget. rewrite Hm. eauto. }
  split_and!; [exact Hget| |intros f Hr; split; [apply Hsent, Hr|]|].
  - intros f Hr. apply offsets_get_out. unfold in_range. lia.
  - rewrite (Hsent f Hr). split.
    + intros (m & Hm & Hx). eapply (Hval f). unfold mget. rewrite Hm. exact Hx.
    + intros Hgt. apply Hsent; [exact Hr|].
      destruct (arr_get_range (oa o) f ltac:(unfold zlen in *; lia)) as (y & Hy & Hg).
      destruct (Z.eqb_spec y 65535) as [->|Hne]; [exact Hy|].
      exfalso. pose proof (Hget f Hr) as Hg'. unfold offsets_get in Hg'. rewrite Hg in Hg'. cbn [rbind] in Hg'.
      unfold offsetInMap in Hg'. replace (y =? 65535) with false in Hg' by lia. cbn [negb] in Hg'. injection Hg' as Hg' _.
      pose proof (Hcell _ _ Hy). lia.
  - intros m f Hm Hx. destruct (proj1 (Hmap f)) as [H0 Hc]; [unfold mget; rewrite Hm; exact Hx|].
    apply lookup_lt_Some in Hc. unfold zlen in Hl'. lia.
Qed.

(** ** C15 *)
Lemma run_app mt sc m os1 os2 : run mt sc m (os1 ++ os2) = let* m := run mt sc m os1 in run mt sc m os2.
Proof.
  revert m. induction os1 as [|o os1 IH]; intros m; [reflexivity|]. cbn [run app].
  destruct (step mt sc m o); cbn [rbind]; [apply IH|reflexivity..].
Qed.

Lemma no_map mt sc os : forall m,
  schema_ok mt sc -> history mt sc os m -> ops_size os < 2 ^ 63 ->
  (forall os1 os2 m1, os = os1 ++ os2 -> run mt sc (msg_zero mt) os1 = Ok m1 -> zlen (m_Encode m1) <= 65535) ->
  om (moff m) = None.
Proof.
  induction os as [|o os IH] using rev_ind; intros m Hsc [Hok Hr] Hsz Hall.
  - cbn in Hr. injection Hr as <-. reflexivity.
  - apply Forall_app in Hok as [Hok Ho]. apply Forall_cons in Ho as [Ho _].
    assert (Hss : ops_size (os ++ [o]) = ops_size os + op_size o).
    { clear. induction os as [|o' os IH]; [cbn; lia|]. cbn [app]. rewrite !ops_size_cons, IH. lia. }
    pose proof (op_size_nonneg o).
    rewrite run_app in Hr. destruct (run mt sc (msg_zero mt) os) as [m1| | |] eqn:E1; cbn [rbind] in Hr; try discriminate.
    assert (Hn1 : om (moff m1) = None).
    { apply IH; [assumption|split; assumption|lia|]. intros os1 os2 m2 -> E. eapply (Hall os1 (os2 ++ [o])); [|exact E].
      rewrite app_assoc. reflexivity. }
    destruct (run_rep mt sc os m1) as (cs & Hm1 & Hs & Hl); try assumption; [lia|].
    destruct (rep_step mt sc m1 cs o (spec_run sc os)) as (m2 & cs2 & He & _ & _ & _ & Hn); try assumption; [lia|].
    cbn [run] in Hr. rewrite He in Hr. cbn [rbind] in Hr. injection Hr as <-.
    apply Hn; [|exact Hn1]. apply (Hall (os ++ [o]) [] m2); [rewrite app_nil_r; reflexivity|].
    rewrite run_app, E1. cbn [rbind run]. rewrite He. reflexivity.
Qed.

(** ** C16 *)
Lemma m_set_order order T m f v :
  (forall ks, NoDup ks -> order ks ≡ₚ ks) -> m_set_ord order T m f v = m_set T m f v.
Proof.
  intros Hord. unfold m_set, m_set_ord.
  destruct T, v; try reflexivity;
    unfold SetBool_ord, SetInt32_ord, SetInt64_ord, SetUint32_ord, SetUint64_ord, SetZigZagInt32_ord, SetZigZagInt64_ord,
      SetFixedUint32_ord, SetFixedUint64_ord, SetFixedInt32_ord, SetFixedInt64_ord, SetFloat32_ord, SetFloat64_ord,
      SetString_ord, SetBytes_ord;
    try (match goal with |- context [put_uvarint ?a ?b] => destruct (put_uvarint a b) end; cbn [rbind]; try reflexivity);
    try (match goal with |- context [put_varint ?a ?b] => destruct (put_varint a b) end; cbn [rbind]; try reflexivity);
    rewrite setSingle_order by exact Hord; reflexivity.
Qed.

(** ** C17, C18: structs that differ only in having allocated an empty map *)
Definition oeq (o1 o2 : offsets) : Prop :=
  oa o1 = oa o2 /\ default ∅ (om o1) = default ∅ (om o2) :> gmap Z Z.
Definition meq (m1 m2 : msg) : Prop := mbuf m1 = mbuf m2 /\ oeq (moff m1) (moff m2).

Definition rrel {A} (R : A -> A -> Prop) (r1 r2 : res A) : Prop :=
  match r1, r2 with
  | Ok a, Ok b => R a b
  | Panic, Panic | PastLen, PastLen | OutOfFuel, OutOfFuel => True
  | _, _ => False
  end.

Lemma rrel_bind {A B} (R : A -> A -> Prop) (S : B -> B -> Prop) m1 m2 k1 k2 :
  rrel R m1 m2 -> (forall a b, R a b -> rrel S (k1 a) (k2 b)) -> rrel S (rbind m1 k1) (rbind m2 k2).
Proof. destruct m1, m2; cbn; try tauto. intros H Hk. apply Hk, H. Qed.

Lemma rrel_bind_eq {A B} (S : B -> B -> Prop) (m : res A) k1 k2 :
  (forall a, rrel S (k1 a) (k2 a)) -> rrel S (rbind m k1) (rbind m k2).
Proof. destruct m; cbn; auto. Qed.

Lemma rrel_eq {A} (r1 r2 : res A) : rrel eq r1 r2 -> r1 = r2.
Proof. destruct r1, r2; cbn; try tauto. congruence. Qed.

Lemma map_get_default m k : map_get m k = default 0 (default ∅ m !! k).
Proof. destruct m as [m|]; cbn; [reflexivity|]. rewrite lookup_empty. reflexivity. Qed.

Lemma oeq_get o1 o2 f : oeq o1 o2 -> offsets_get o1 f = offsets_get o2 f.
Proof. intros [Ha Hm]. unfold offsets_get. rewrite !map_get_default, Ha, Hm. reflexivity. Qed.

Lemma oeq_set o1 o2 f x : oeq o1 o2 -> rrel oeq (offsets_set o1 f x) (offsets_set o2 f x).
Proof.
  intros [Ha Hm]. unfold offsets_set. rewrite Ha. destruct (x <=? offsetMaxInArray).
  - apply rrel_bind_eq. intros prev. apply rrel_bind_eq. intros a'. cbn. split; cbn [oa om]; [reflexivity|].
    destruct (prev =? offsetInMap); [|exact Hm].
    destruct (om o1) as [m1|], (om o2) as [m2|]; cbn in *; subst; rewrite ?delete_empty; reflexivity.
  - apply rrel_bind_eq. intros a'. cbn. split; cbn [oa om]; [reflexivity|].
    cbn. f_equal. destruct (om o1), (om o2); cbn in *; subst; reflexivity.
Qed.

Lemma oeq_clear o1 o2 : length (oa o1) = length (oa o2) -> oeq (offsets_clear o1) (offsets_clear o2).
Proof.
  intros Hl. split; cbn [offsets_clear oa om].
  - revert Hl. generalize (oa o1) (oa o2). intros l1. induction l1 as [|x l1 IH]; intros [|y l2] Hl; try discriminate; [reflexivity|].
    cbn [map]. f_equal. apply IH. cbn in Hl. lia.
  - destruct (om o1), (om o2); reflexivity.
Qed.

Lemma oeq_len o1 o2 : oeq o1 o2 -> length (oa o1) = length (oa o2).
Proof. intros [-> _]. reflexivity. Qed.

Lemma map_keys_default o : map_keys o = (map_to_list (default ∅ (om o))).*1.
Proof. unfold map_keys. destruct (om o); [reflexivity|]. cbn. rewrite map_to_list_empty. reflexivity. Qed.

Lemma oeq_adjust_keys ks e r : forall o1 o2,
  oeq o1 o2 -> rrel oeq (adjust_map_keys ks e r o1) (adjust_map_keys ks e r o2).
Proof.
  induction ks as [|k ks IH]; intros o1 o2 Ho; cbn [adjust_map_keys]; [exact Ho|].
  apply rrel_bind with (R := oeq); [|intros a b Hab; apply IH, Hab].
  assert (Hk : forall o, adjust_map_key e r k o =
     match (default ∅ (om o) : gmap Z Z) !! k with
     | None => Ok o
     | Some offset => if e <? offset then offsets_set o k (u64 (offset - r)) else Ok o
     end).
  { intros o. unfold adjust_map_key. destruct (om o); reflexivity. }
  rewrite !Hk. rewrite (proj2 Ho). destruct (_ !! k) as [x|]; [|exact Ho].
  destruct (e <? x); [apply oeq_set, Ho|exact Ho].
Qed.

Definition boeq (p q : list Z * offsets) : Prop := p.1 = q.1 /\ oeq p.2 q.2.

Lemma oeq_setSingle buf o1 o2 f typ vl v :
  oeq o1 o2 -> rrel boeq (setSingle buf o1 f typ vl v) (setSingle buf o2 f typ vl v).
Proof.
  intros Ho. unfold setSingle, setSingle_ord. apply rrel_bind_eq. intros tb.
  assert (Hnew : forall b p1 p2, oeq p1 p2 ->
    rrel boeq (let* o := offsets_set p1 f (u64 (zlen (b ++ tb))) in Ok ((b ++ tb) ++ vl ++ v, o))
              (let* o := offsets_set p2 f (u64 (zlen (b ++ tb))) in Ok ((b ++ tb) ++ vl ++ v, o))).
  { intros b p1 p2 Hp. eapply rrel_bind; [apply oeq_set, Hp|]. intros a c Hac. split; [reflexivity|exact Hac]. }
  rewrite (oeq_get o1 o2 f Ho). apply rrel_bind_eq. intros [x [|]]; [|apply Hnew, Ho].
  apply rrel_bind_eq. intros n. destruct (n =? _).
  - apply rrel_bind_eq. intros [b1 n1]. apply rrel_bind_eq. intros [b2 n2]. split; [reflexivity|exact Ho].
  - apply rrel_bind_eq. intros src. apply rrel_bind_eq. intros [b1 n1]. apply rrel_bind_eq. intros b2.
    eapply rrel_bind with (R := oeq).
    + rewrite !map_keys_default. cbn [om]. rewrite (proj2 Ho). apply oeq_adjust_keys. split; cbn [oa om]; [rewrite (proj1 Ho); reflexivity|apply Ho].
    + intros a b Hab. apply Hnew, Hab.
Qed.

Lemma oeq_appendSingle buf o1 o2 f typ vl v :
  oeq o1 o2 -> rrel boeq (appendSingle buf o1 f typ vl v) (appendSingle buf o2 f typ vl v).
Proof.
  intros Ho. unfold appendSingle. apply rrel_bind_eq. intros tb. rewrite (oeq_get o1 o2 f Ho).
  apply rrel_bind_eq. intros [x ok]. eapply rrel_bind with (R := oeq).
  - destruct ok; [exact Ho|apply oeq_set, Ho].
  - intros a b Hab. split; [reflexivity|exact Hab].
Qed.

Lemma meq_set T m1 m2 f v : meq m1 m2 -> rrel meq (m_set T m1 f v) (m_set T m2 f v).
Proof.
  intros [Hb Ho]. unfold m_set, m_set_ord. rewrite Hb. apply rrel_bind with (R := boeq).
  - destruct T, v; try exact I;
    unfold SetBool_ord, SetInt32_ord, SetInt64_ord, SetUint32_ord, SetUint64_ord, SetZigZagInt32_ord, SetZigZagInt64_ord,
      SetFixedUint32_ord, SetFixedUint64_ord, SetFixedInt32_ord, SetFixedInt64_ord, SetFloat32_ord, SetFloat64_ord,
      SetString_ord, SetBytes_ord; first [apply oeq_setSingle, Ho | apply rrel_bind_eq; intros ?; apply oeq_setSingle, Ho].
  - intros [b1 p1] [b2 p2] [Hb' Ho']. split; assumption.
Qed.

Lemma meq_append m1 m2 f x : meq m1 m2 -> rrel meq (m_append m1 f x) (m_append m2 f x).
Proof.
  intros [Hb Ho]. unfold m_append. rewrite Hb. apply rrel_bind with (R := boeq).
  - unfold AppendBytes. apply rrel_bind_eq. intros vl. apply oeq_appendSingle, Ho.
  - intros [b1 p1] [b2 p2] [Hb' Ho']. split; assumption.
Qed.

Lemma meq_get T m1 m2 f : meq m1 m2 -> m_get T m1 f = m_get T m2 f.
Proof.
  intros [Hb Ho]. unfold m_get. rewrite Hb.
  destruct T; unfold GetBool, GetInt32, GetInt64, GetUint32, GetUint64, GetZigZagInt32, GetZigZagInt64,
      GetFixedUint32, GetFixedUint64, GetFixedInt32, GetFixedInt64, GetFloat32, GetFloat64, GetString, GetBytes, with_offset;
    rewrite (oeq_get _ _ f Ho); reflexivity.
Qed.

Lemma meq_iter m1 m2 f : meq m1 m2 -> m_Iter m1 f = m_Iter m2 f.
Proof.
  intros [Hb Ho]. unfold m_Iter, GetRepeatedNonPacked, with_offset. rewrite Hb, (oeq_get _ _ f Ho). reflexivity.
Qed.

Definition eoeq (p q : option error * offsets) : Prop := p.1 = q.1 /\ oeq p.2 q.2.

Lemma oeq_decode_loop fuel buf reps : forall idx o1 o2,
  oeq o1 o2 -> rrel eoeq (decode_loop fuel buf reps idx o1) (decode_loop fuel buf reps idx o2).
Proof.
  induction fuel as [|fuel IH]; intros idx o1 o2 Ho; cbn [decode_loop]; [exact I|].
  assert (Hret : forall e, eoeq (e, o1) (e, o2)) by (intros e; split; [reflexivity|exact Ho]).
  destruct (idx =? zlen buf); [apply Hret|]. destruct (zlen buf <? idx); [apply Hret|].
  apply rrel_bind_eq. intros b. destruct (uvarint b) as [tag size]. destruct (size =? 0); [apply Hret|].
  cbn zeta. destruct (zlen buf <=? i64 (idx + size)); [apply Hret|].
  apply rrel_bind with (R := oeq).
  - destruct (is_repeated reps (i64 (Z.shiftr tag 3))); [|apply oeq_set, Ho].
    rewrite (oeq_get o1 o2 _ Ho). apply rrel_bind_eq. intros [x [|]]; [exact Ho|apply oeq_set, Ho].
  - intros p1 p2 Hp. apply rrel_bind_eq. intros b2. apply rrel_bind_eq. intros s.
    destruct (s =? 0); [split; [reflexivity|exact Hp]|apply IH, Hp].
Qed.

Definition emeq (p q : option error * msg) : Prop := p.1 = q.1 /\ meq p.2 q.2.

Lemma meq_decode mt m1 m2 buf :
  length (oa (moff m1)) = length (oa (moff m2)) -> rrel emeq (m_Decode mt m1 buf) (m_Decode mt m2 buf).
Proof.
  intros Hl. unfold m_Decode, Decode. apply rrel_bind with (R := eoeq).
  - apply oeq_decode_loop, oeq_clear, Hl.
  - intros [e1 o1] [e2 o2] [He Ho]. split; [exact He|]. split; [reflexivity|exact Ho].
Qed.

Definition ameq (p q : answer * msg) : Prop := p.1 = q.1 /\ meq p.2 q.2.

Lemma meq_exec mt m1 m2 c : meq m1 m2 -> rrel ameq (exec mt m1 c) (exec mt m2 c).
Proof.
  intros Hm. destruct c as [T f|T f v|f x|mt' f x|n mt' f x| |buf|buf]; cbn [exec].
  - rewrite (meq_get T m1 m2 f Hm). apply rrel_bind_eq. intros v. split; [reflexivity|exact Hm].
  - eapply rrel_bind; [apply meq_set, Hm|]. intros a b Hab. split; [reflexivity|exact Hab].
  - eapply rrel_bind; [apply meq_append, Hm|]. intros a b Hab. split; [reflexivity|exact Hab].
  - rewrite !m_Message_get, (meq_get _ m1 m2 f Hm). apply rrel_bind_eq. intros [[ok err] y]. split; [reflexivity|exact Hm].
  - unfold m_iterate. rewrite (meq_iter m1 m2 f Hm). apply rrel_bind_eq. intros l. split; [reflexivity|exact Hm].
  - split; [cbn [fst]; unfold m_Encode; f_equal; apply Hm|exact Hm].
  - eapply rrel_bind; [apply meq_decode, oeq_len, Hm|]. intros [e1 a] [e2 b] [He Hab]. cbn in He. subst. split; [reflexivity|exact Hab].
  - unfold m_Reset. destruct (0 <? zlen buf); [exact I|]. cbn. split; [reflexivity|]. split; [reflexivity|].
    apply oeq_clear, oeq_len, Hm.
Qed.

Lemma meq_trace mt cs : forall m1 m2, meq m1 m2 -> trace mt m1 cs = trace mt m2 cs.
Proof.
  induction cs as [|c cs IH]; intros m1 m2 Hm; [reflexivity|]. cbn [trace].
  pose proof (meq_exec mt m1 m2 c Hm) as He.
  destruct (exec mt m1 c) as [[a1 p1]| | |], (exec mt m2 c) as [[a2 p2]| | |]; cbn in He; try contradiction; try reflexivity.
  destruct He as [Ha Hp]. cbn [fst snd] in *. rewrite (IH _ _ Hp), Ha. reflexivity.
Qed.

Lemma reset_fresh mt m :
  of_type mt m ->
  (exists m', m_Reset m [] = Ok m' /\ m_Encode m' = [] /\
     forall cs, trace mt m' cs = trace mt (msg_zero mt) cs) /\
  (forall b bs, m_Reset m (b :: bs) = Panic).
Proof.
  intros Ht. split.
  - exists (mkMsg [] (offsets_clear (moff m))). split_and!; [reflexivity..|].
    intros cs. apply meq_trace. split; [reflexivity|].
    assert (Hz : moff (msg_zero mt) = offsets_clear (mkOffsets (replicate (alen mt) 0) None)).
    { unfold msg_zero, offsets_zero, offsets_clear. cbn [moff oa om]. f_equal.
      generalize (alen mt). intros n. induction n as [|n IH]; cbn; [reflexivity|]. f_equal. exact IH. }
    rewrite Hz. apply oeq_clear. cbn [oa]. rewrite replicate_length. exact Ht.
  - intros b bs. unfold m_Reset. rewrite zlen_cons. pose proof (zlen_nonneg bs).
    replace (0 <? 1 + zlen bs) with true by lia. reflexivity.
Qed.

Lemma decode_forgets mt m1 m2 buf cs :
  of_type mt m1 -> of_type mt m2 -> trace mt m1 (CDecode buf :: cs) = trace mt m2 (CDecode buf :: cs).
Proof.
  intros H1 H2. cbn [trace exec].
  pose proof (meq_decode mt m1 m2 buf ltac:(unfold of_type in *; congruence)) as He.
  destruct (m_Decode mt m1 buf) as [[e1 p1]| | |], (m_Decode mt m2 buf) as [[e2 p2]| | |]; cbn in He |- *;
    try contradiction; try reflexivity.
  destruct He as [He Hp]. cbn [fst snd] in *. rewrite (meq_trace mt cs _ _ Hp), He. reflexivity.
Qed.
