(** * C78: the order of the records *)
From Verif Require Import Api Demo.
From Verif Require Import VarintFacts OffsetsFacts RecFacts DecodeFacts SetFacts GetFacts IterFacts ApiFacts ApiInv.
From Verif Require Import Core Core2 Core3 Core4 Core5 Core6 Canon SpecOrder.
From Coq Require Import ZifyBool.

Notation cpart := (fun c => (crecord c, cbytes c)).

Lemma lacks_occ f cs : occ f (map crecord cs) = [] <-> lacks f (map cpart cs).
Proof.
  unfold lacks. induction cs as [|c cs IH]; cbn [map occ crecord fst snd]; [split; constructor|].
  rewrite Forall_cons, <- IH. cbn [fst snd crecord]. destruct (Z.eqb_spec (cf c) f); [|tauto]. split; [discriminate|tauto].
Qed.
Lemma parts_of cs : Forall cvalid cs -> wire_parts (map cpart cs) (flat cs).
Proof.
  intros H. split.
  - apply Forall_map. eapply Forall_impl; [exact H|]. intros c [Ht Hp]. exists (ct c), (cp c). auto.
  - clear H. induction cs as [|c cs IH]; [reflexivity|]. cbn [flat map concat snd]. rewrite IH. reflexivity.
Qed.

Lemma same_tag_len sc c new : cmin c -> cmin new -> cf new = cf c -> wire_type (cw new) = wire_type (cw c) -> well_typed sc (crecord c) -> ct new = ct c.
Proof.
  intros [_ [_ H1]] [_ [_ H2]] Ef Ew _. cbn [crecord fst snd] in *. rewrite Ef, Ew in H2. eapply minimal_varint_unique; eassumption.
Qed.
Lemma cbytes_len c d : ct c = ct d -> (zlen (cp c) = zlen (cp d) <-> length (cbytes c) = length (cbytes d)).
Proof. intros E. unfold cbytes, zlen. rewrite !app_length, E. lia. Qed.

Lemma set_result_arranges sc f T v new o o' cs cs' : sc f = Some (KSingle T) -> set_result f new o o' cs cs' ->
  cmin new -> cf new = f -> cw new = wire_of T v -> canonical_payload (wire_of T v) (cp new) ->
  arranges sc (map cpart cs) (OSet f v) (map cpart cs').
Proof.
  intros Hf Hs [Hv Ht] Ef Ew Hp.
  assert (Hc : canonical_record (f, wire_of T v) (cbytes new)).
  { exists (ct new), (cp new). cbn [snd]. split; [reflexivity|]. split; [|exact Hp]. unfold crecord in Ht. rewrite Ef, Ew in Ht. exact Ht. }
  assert (Ec : cpart new = ((f, wire_of T v), cbytes new)) by (unfold crecord; rewrite Ef, Ew; reflexivity). cbv beta in Ec.
  destruct Hs as [cs Ho|pre c post Hcf Ho Hl Et _|pre c post Hcf Ho Hl Et]; rewrite !map_app; cbn [map]; rewrite ?map_app; cbn [map]; rewrite ?Ec.
  - eapply arranges_first; [exact Hf|exact Hc|]. apply lacks_occ, Ho.
  - eapply arranges_same; [exact Hf|exact Hc|exact Hcf|apply lacks_occ, Ho|]. apply cbytes_len; assumption.
  - eapply arranges_moved; [exact Hf|exact Hc|exact Hcf|apply lacks_occ, Ho|]. cbn [snd]. intros E. apply Hl, (cbytes_len new c Et), E.
Qed.

Lemma order_run mt sc os : schema_ok mt sc -> Forall (op_ok (Z.of_nat (alen mt)) sc) os -> forall m cs os0,
  Rep mt sc m cs -> arranged sc os0 (map cpart cs) -> zlen (mbuf m) + ops_size os < 2 ^ 63 ->
  exists m' cs', run mt sc m os = Ok m' /\ Rep mt sc m' cs' /\ arranged sc (os0 ++ os) (map cpart cs').
Proof.
  intros Hsc. induction 1 as [|o os Ho Hok IH]; intros m cs os0 Hm Ha Hsz; [exists m, cs; rewrite app_nil_r; auto|].
  rewrite ops_size_cons in Hsz. pose proof (ops_size_nonneg os) as Hnn. pose proof (op_size_nonneg o).
  assert (Hstep : exists m1 cs1, step mt sc m o = Ok m1 /\ Rep mt sc m1 cs1 /\ arranges sc (map cpart cs) o (map cpart cs1) /\
                    zlen (mbuf m1) <= zlen (mbuf m) + op_size o).
  { assert (Hlen : forall m1, step mt sc m o = Ok m1 -> zlen (mbuf m1) <= zlen (mbuf m) + op_size o).
    { intros m1 E. destruct (rep_step mt sc m cs o (view sc (map crecord cs))) as (m2 & cs2 & E2 & _ & _ & Hl & _); try assumption; [reflexivity|lia|].
      rewrite E in E2. injection E2 as <-. exact Hl. }
    destruct o as [f v|f x| |rs bs]; cbn [op_ok op_size step] in *.
    - destruct Ho as (T & Hf & Hin). rewrite Hf in *.
      destruct (rep_set mt sc m cs f T v) as (m' & cs' & new & He & Hm' & Hnew & Hnf & Hnw & Hcan & Hpl & Hres & _); try assumption; [lia|].
      exists m', cs'. split_and!; auto. eapply set_result_arranges; eassumption.
    - destruct Ho as (Hf & Hx). destruct (rep_append mt sc m cs f x) as (m' & new & He & Hm' & [Hv Ht] & Hnf & Hnw & Hcan & _); try assumption;
        [unfold zlen in *; lia|].
      exists m', (cs ++ [new]). split_and!; auto. rewrite map_app. cbn [map].
      replace (cpart new) with ((f, WBytes x), cbytes new) by (unfold crecord; rewrite Hnf, Hnw; reflexivity).
      constructor. exists (ct new), (cp new). cbn [snd]. split; [reflexivity|]. split; [|exact Hcan]. unfold crecord in Ht. rewrite Hnf, Hnw in Ht. exact Ht.
    - destruct (rep_reset mt sc m (rep_len _ _ _ _ Hm)) as (m' & He & Hm' & _). exists m', []. split_and!; auto. constructor.
    - destruct Ho as [Hw Hty]. destruct (rep_decode mt sc m rs bs (rep_len _ _ _ _ Hm) Hw Hty) as (m' & cs' & He & Hb & Hm' & Hrs & _); [unfold zlen in *; lia|].
      exists m', cs'. rewrite He in *. cbn [rbind] in *. split_and!; auto. constructor.
      rewrite <- Hb, (rep_buf _ _ _ _ Hm'). apply parts_of, cmin_valid, (rep_min _ _ _ _ Hm'). }
  destruct Hstep as (m1 & cs1 & He & Hm1 & Ha1 & Hl1). cbn [run]. rewrite He. cbn [rbind].
  replace (os0 ++ o :: os) with ((os0 ++ [o]) ++ os) by (rewrite <- app_assoc; reflexivity).
  apply (IH m1 cs1); [exact Hm1|eapply arranged_snoc; eassumption|lia].
Qed.

(** The bytes of a message are its records in the order SpecOrder.v says. *)
Theorem C78_order mt sc os m : schema_ok mt sc -> history mt sc os m -> ops_size os < 2 ^ 63 ->
  exists L, arranged sc os L /\ wire_parts L (m_Encode m).
Proof.
  intros Hsc [Hok Hr] Hsz. destruct (order_run mt sc os Hsc Hok (msg_zero mt) [] []) as (m' & cs & E & Hm & Ha); [apply rep_zero|constructor|exact Hsz|].
  rewrite Hr in E. injection E as <-. exists (map cpart cs). split; [exact Ha|]. unfold m_Encode. rewrite (rep_buf _ _ _ _ Hm). apply parts_of, cmin_valid, (rep_min _ _ _ _ Hm).
Qed.

(** ** The history determines the order *)
Lemma canonical_unique r b b' : canonical_record r b -> canonical_record r b' -> b = b'.
Proof.
  intros (tb & pb & -> & Ht & Hp) (tb' & pb' & -> & Ht' & Hp').
  assert (Hv : forall p, canonical_payload r.2 p -> payload_enc r.2 p).
  { intros p. destruct r.2 as [v|v|bs|v]; cbn; auto; [intros [H _]; exact H|]. intros (lb & -> & [H _] & Hb). eauto. }
  assert (Htag : forall t, minimal_tag_enc r t -> tag_enc r t) by (intros t [H1 [H2 _]]; split; assumption).
  pose proof (canon_unique (fun _ => Some KRepeated) (mkCrec r.1 r.2 tb pb) (mkCrec r.1 r.2 tb' pb')) as H.
  destruct r as [f w]. cbn [fst snd] in *. unfold ccanon, cmin, cvalid, crecord in H. cbn [cf cw ct cp] in H.
  assert (E : mkCrec f w tb pb = mkCrec f w tb' pb') by (apply H; [split_and!; auto; discriminate|split_and!; auto; discriminate|reflexivity]).
  injection E as -> ->. reflexivity.
Qed.
Lemma last_unique f (L1 L1' L2 L2' : list part) p p' : L1 ++ p :: L2 = L1' ++ p' :: L2' -> p.1.1 = f -> p'.1.1 = f -> lacks f L2 -> lacks f L2' ->
  L1 = L1' /\ p = p' /\ L2 = L2'.
Proof.
  revert L1'. induction L1 as [|x L1 IH]; intros [|x' L1'] E Hp Hp' H2 H2'; cbn [app] in E.
  - injection E as -> ->. auto.
  - injection E as -> ->. unfold lacks in H2. rewrite Forall_app, Forall_cons in H2. tauto.
  - injection E as -> <-. unfold lacks in H2'. rewrite Forall_app, Forall_cons in H2'. tauto.
  - injection E as -> E. destruct (IH _ E Hp Hp' H2 H2') as (-> & -> & ->). auto.
Qed.
Lemma lacks_not f (L1 L2 : list part) p : lacks f (L1 ++ p :: L2) -> p.1.1 <> f.
Proof. unfold lacks. rewrite Forall_app, Forall_cons. tauto. Qed.
Lemma parts_unique ps qs bs : wire_parts ps bs -> wire_parts qs bs -> zlen bs < 2 ^ 63 -> ps = qs.
Proof.
  intros Hp Hq Hl. apply wire_parts_concrete in Hp as (cs & V1 & <- & F1). apply wire_parts_concrete in Hq as (ds & V2 & <- & F2).
  rewrite (flat_det cs ds); auto; congruence.
Qed.
Lemma arranges_det sc L o L1 L2 : op_size o < 2 ^ 63 -> arranges sc L o L1 -> arranges sc L o L2 -> L1 = L2.
Proof.
  intros Hsz H1 H2. destruct H1 as [L f T v b Hf Hb Hn|A p B f T v b Hf Hb Hpf Hn Hl|A p B f T v b Hf Hb Hpf Hn Hl|L f x b Hb|L|L rs bs L' Hw].
  - inversion H2 as [L0 f0 T' v0 b' Hf' Hb' Hn'|A' p' B' f0 T' v0 b' Hf' Hb' Hpf' Hn' Hl' EL|A' p' B' f0 T' v0 b' Hf' Hb' Hpf' Hn' Hl' EL| | |]; subst.
    + rewrite Hf in Hf'. injection Hf' as <-. rewrite (canonical_unique _ _ _ Hb Hb'). reflexivity.
    + apply lacks_not in Hn. congruence.
    + apply lacks_not in Hn. congruence.
  - inversion H2 as [L0 f0 T' v0 b' Hf' Hb' Hn'|A' p' B' f0 T' v0 b' Hf' Hb' Hpf' Hn' Hl' EL|A' p' B' f0 T' v0 b' Hf' Hb' Hpf' Hn' Hl' EL| | |]; subst.
    + apply lacks_not in Hn'. congruence.
    + destruct (last_unique _ _ _ _ _ _ _ EL Hpf' eq_refl Hn' Hn) as (-> & -> & ->).
      rewrite Hf in Hf'. injection Hf' as <-. rewrite (canonical_unique _ _ _ Hb Hb'). reflexivity.
    + destruct (last_unique _ _ _ _ _ _ _ EL Hpf' eq_refl Hn' Hn) as (-> & -> & ->). rewrite Hf in Hf'. injection Hf' as <-. rewrite (canonical_unique _ _ _ Hb Hb') in Hl. contradiction.
  - inversion H2 as [L0 f0 T' v0 b' Hf' Hb' Hn'|A' p' B' f0 T' v0 b' Hf' Hb' Hpf' Hn' Hl' EL|A' p' B' f0 T' v0 b' Hf' Hb' Hpf' Hn' Hl' EL| | |]; subst.
    + apply lacks_not in Hn'. congruence.
    + destruct (last_unique _ _ _ _ _ _ _ EL Hpf' eq_refl Hn' Hn) as (-> & -> & ->). rewrite Hf in Hf'. injection Hf' as <-. rewrite (canonical_unique _ _ _ Hb Hb') in Hl. contradiction.
    + destruct (last_unique _ _ _ _ _ _ _ EL Hpf' eq_refl Hn' Hn) as (-> & -> & ->).
      rewrite Hf in Hf'. injection Hf' as <-. rewrite (canonical_unique _ _ _ Hb Hb'). reflexivity.
  - inversion H2; subst. rewrite (canonical_unique _ _ _ Hb H4). reflexivity.
  - inversion H2; subst. reflexivity.
  - inversion H2; subst. eapply parts_unique; [exact Hw|eassumption|]. cbn [op_size] in Hsz. unfold zlen. lia.
Qed.

Theorem C78_determined sc os L1 L2 : ops_size os < 2 ^ 63 -> arranged sc os L1 -> arranged sc os L2 -> L1 = L2.
Proof.
  intros Hsz H1. revert L2. induction H1 as [|os L o L' H1 IH Ha]; intros L2 H2.
  - inversion H2; [reflexivity|]. destruct os; discriminate.
  - inversion H2 as [E|os' M o' M' H2' Ha' E]; [destruct os; discriminate|]. apply app_inj_tail in E as [-> ->]. subst M'.
    assert (Hs : ops_size (os ++ [o]) = ops_size os + op_size o).
    { clear. induction os as [|x os IH]; cbn [app]; rewrite ?ops_size_cons; [cbn; lia|lia]. }
    pose proof (ops_size_nonneg os). pose proof (op_size_nonneg o).
    assert (L = M) as -> by (apply IH; [lia|exact H2']). eapply arranges_det; [|exact Ha|exact Ha']. lia.
Qed.

(** Two messages have the same bytes exactly if they have the same records, with the
    same bytes, in the same order. *)
Theorem C78_equal_bytes mt sc os1 m1 os2 m2 L1 L2 :
  schema_ok mt sc -> history mt sc os1 m1 -> history mt sc os2 m2 -> ops_size os1 < 2 ^ 63 -> ops_size os2 < 2 ^ 63 ->
  arranged sc os1 L1 -> arranged sc os2 L2 -> (m_Encode m1 = m_Encode m2 <-> L1 = L2).
Proof.
  intros Hsc H1 H2 S1 S2 A1 A2. destruct (C78_order _ _ _ _ Hsc H1 S1) as (M1 & B1 & W1). destruct (C78_order _ _ _ _ Hsc H2 S2) as (M2 & B2 & W2).
  rewrite (C78_determined _ _ _ _ S1 A1 B1), (C78_determined _ _ _ _ S2 A2 B2). split.
  - intros E. rewrite <- E in W2. eapply parts_unique; [exact W1|exact W2|]. destruct H1 as [Hok Hr].
    destruct (run_rep mt sc os1 m1 Hsc Hok S1 Hr) as (_ & _ & _ & Hl). unfold m_Encode. lia.
  - intros ->. destruct W1 as [_ ->], W2 as [_ ->]. reflexivity.
Qed.

(** Setting a field to the value just set changes no byte. *)
Theorem C78_set_again mt sc os m f T v m1 m2 : schema_ok mt sc -> history mt sc os m -> sc f = Some (KSingle T) -> in_type T v ->
  ops_size os + 2 * (20 + pval_size v) < 2 ^ 63 ->
  m_set T m f v = Ok m1 -> m_set T m1 f v = Ok m2 -> m_Encode m2 = m_Encode m1.
Proof.
  intros Hsc [Hok Hr] Hf Hin Hsz E1 E2.
  assert (Hs : forall os o, ops_size (os ++ [o]) = ops_size os + op_size o).
  { clear. intros os o. induction os as [|x os IH]; cbn [app]; rewrite ?ops_size_cons; [cbn; lia|lia]. }
  assert (Hrun : forall os m o m', run mt sc (msg_zero mt) os = Ok m -> step mt sc m o = Ok m' -> run mt sc (msg_zero mt) (os ++ [o]) = Ok m').
  { clear. intros os m o m' H1 H2. revert H1. generalize (msg_zero mt). induction os as [|x os IH]; intros m0; cbn [app run].
    - intros [= ->]. rewrite H2. reflexivity.
    - destruct (step mt sc m0 x); cbn [rbind]; try discriminate. apply IH. }
  assert (Hop : op_ok (Z.of_nat (alen mt)) sc (OSet f v)) by (exists T; auto).
  assert (Sz : op_size (OSet f v) = 20 + pval_size v) by reflexivity.
  assert (0 <= pval_size v) by (destruct v as [| | |[|]]; cbn; lia).
  assert (H1 : history mt sc (os ++ [OSet f v]) m1).
  { split; [apply Forall_app; split; [exact Hok|repeat constructor; exact Hop]|]. eapply Hrun; [exact Hr|]. cbn [step]. rewrite Hf. exact E1. }
  assert (H2 : history mt sc ((os ++ [OSet f v]) ++ [OSet f v]) m2).
  { split; [apply Forall_app; split; [apply H1|repeat constructor; exact Hop]|]. eapply Hrun; [apply H1|]. cbn [step]. rewrite Hf. exact E2. }
  destruct (C78_order _ _ _ _ Hsc H1) as (L1 & A1 & _); [rewrite Hs, Sz; lia|].
  assert (A2 : arranged sc ((os ++ [OSet f v]) ++ [OSet f v]) L1).
  { eapply arranged_snoc; [exact A1|]. inversion A1 as [E|os' L o' L' _ Ha E]; [destruct os; discriminate|]. apply app_inj_tail in E as [-> ->]. subst L'.
    inversion Ha as [L0 f0 T' v0 b Hf' Hb Hn|A p B f0 T' v0 b Hf' Hb Hp Hn Hl EL|A p B f0 T' v0 b Hf' Hb Hp Hn Hl EL| | |]; subst.
    - apply (arranges_same sc L ((f, wire_of T' v), b) []); auto. constructor.
    - apply (arranges_same sc A ((p.1.1, wire_of T' v), b) B); auto.
    - rewrite app_assoc. apply (arranges_same sc (A ++ B) ((p.1.1, wire_of T' v), b) []); auto. constructor. }
  symmetry. eapply C78_equal_bytes; [exact Hsc|exact H1|exact H2|rewrite Hs, Sz; lia|rewrite !Hs, Sz; lia|exact A1|exact A2|reflexivity].
Qed.

(** A case: field 1 moves behind field 6 when its size changes, field 6 stays. *)
Definition order_os : list op := [OSet 1 (VNum 1); OSet 6 (VNum 2); OSet 1 (VNum 300); OSet 6 (VNum 1)].
Example C78_case : schema_ok demo_mt demo_sc /\ (exists m, history demo_mt demo_sc order_os m /\ m_Encode m = [48; 2; 8; 172; 2]) /\ ops_size order_os < 2 ^ 63 /\
  arranged demo_sc order_os [((6, WVarint 2), [48; 2]); ((1, WVarint 300), [8; 172; 2])].
Proof.
  split; [exact demo_schema_ok|]. split; [|split; [reflexivity|]].
  - eexists. split; [split; [|vm_compute; reflexivity]|reflexivity].
    repeat (apply Forall_cons_2; [eexists; split; [reflexivity|cbn; lia]|]). constructor.
  - assert (C : forall f T v tb pb, minimal_tag_enc (f, wire_of T v) tb -> canonical_payload (wire_of T v) pb -> canonical_record (f, wire_of T v) (tb ++ pb)).
    { intros f T v tb pb H1 H2. exists tb, pb. auto. }
    change order_os with (((([] ++ [OSet 1 (VNum 1)]) ++ [OSet 6 (VNum 2)]) ++ [OSet 1 (VNum 300)]) ++ [OSet 6 (VNum 1)]).
    assert (M300 : is_minimal_varint 300 [172; 2]).
    { destruct (put_uvarint_minimal 10 300) as (bs & E & H); [lia..|]. vm_compute in E. injection E as <-. exact H. }
    eapply arranged_snoc; [eapply arranged_snoc; [eapply arranged_snoc; [eapply arranged_snoc; [apply arranged_nil|]|]|]|].
    + apply (arranges_first _ [] 1 PInt32 (VNum 1) [8; 1]); [reflexivity| |constructor].
      apply (C _ _ _ [8] [1]); [split; [cbn; lia|apply small_varint; cbn; lia]|apply small_varint; lia].
    + apply (arranges_first _ _ 6 PSint32 (VNum 2) [48; 4]); [reflexivity| |repeat constructor; discriminate].
      apply (C _ _ _ [48] [4]); [split; [cbn; lia|apply small_varint; cbn; lia]|apply small_varint; lia].
    + apply (arranges_moved _ [] ((1, WVarint 1), [8; 1]) [((6, WVarint 4), [48; 4])] 1 PInt32 (VNum 300) [8; 172; 2]); [reflexivity| |reflexivity|repeat constructor; discriminate|discriminate].
      apply (C _ _ _ [8] [172; 2]); [split; [cbn; lia|apply small_varint; cbn; lia]|exact M300].
    + apply (arranges_same _ [] ((6, WVarint 4), [48; 4]) [((1, WVarint 300), [8; 172; 2])] 6 PSint32 (VNum 1) [48; 2]); [reflexivity| |reflexivity|repeat constructor; discriminate|reflexivity].
      apply (C _ _ _ [48] [2]); [split; [cbn; lia|apply small_varint; cbn; lia]|apply small_varint; lia].
Qed.

Print Assumptions C78_order.
Print Assumptions C78_determined.
Print Assumptions C78_equal_bytes.
Print Assumptions C78_set_again.
