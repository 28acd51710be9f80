(** * Lemmas for C21, C23, C24 *)
From Verif Require Import Api VarintFacts OffsetsFacts RecFacts DecodeFacts SetFacts GetFacts IterFacts ApiFacts ApiInv.
From Verif Require Import Core Core2 Core3 Core4 Core5.

Lemma occ_In f w rs : In w (occ f rs) <-> In (f, w) rs.
Proof.
  induction rs as [|[g u] rs IH]; [reflexivity|]. cbn [occ In]. destruct (Z.eqb_spec g f) as [->|Hg]; cbn [In]; rewrite IH.
  - split; intros [H|H]; try (right; exact H); left; congruence.
  - split; [intros H; right; exact H|intros [H|H]; [congruence|exact H]].
Qed.

Lemma last_In {A} (l : list A) x : last l = Some x -> In x l.
Proof. intros H. apply last_Some in H as [l' ->]. apply in_or_app. right. left. reflexivity. Qed.

Lemma rep_last_conforms mt sc m cs f T w :
  Rep mt sc m cs -> sc f = Some (KSingle T) -> last (occ f (map crecord cs)) = Some w -> conforms T w.
Proof.
  intros HR Hf Hl. apply last_In, occ_In, in_map_iff in Hl as (c & Hc & Hin). injection Hc as Hcf Hcw.
  pose proof (rep_typed _ _ _ _ HR) as Hty. rewrite Forall_forall in Hty.
  destruct (Hty c (proj2 (elem_of_list_In _ _) Hin)) as [_ Hwt]. unfold well_typed in Hwt.
  cbn [crecord fst snd] in Hwt. rewrite Hcf, Hf in Hwt. rewrite <- Hcw. exact Hwt.
Qed.

Lemma history_conforms mt sc os m f T w :
  schema_ok mt sc -> history mt sc os m -> ops_size os < 2 ^ 63 -> sc f = Some (KSingle T) ->
  last (spec_run sc os f) = Some w -> conforms T w.
Proof.
  intros H1 H2 H3 Hf Hl. destruct (hist_rep mt sc os m H1 H2 H3) as (cs & HR & Hv & _).
  rewrite Hv in Hl. unfold view in Hl. rewrite Hf, last_last_only in Hl. eapply rep_last_conforms; eassumption.
Qed.

Lemma base256_inj l1 : forall l2, length l1 = length l2 -> Forall is_byte l1 -> Forall is_byte l2 -> base256 l1 = base256 l2 -> l1 = l2.
Proof.
  induction l1 as [|a l1 IH]; intros [|b l2] Hl H1 H2 He; try discriminate; [reflexivity|].
  apply Forall_cons in H1 as [Ha H1]. apply Forall_cons in H2 as [Hb H2]. cbn [base256] in He. unfold is_byte in *.
  assert (a = b /\ base256 l1 = base256 l2) as [-> He'] by lia.
  f_equal. apply IH; auto.
Qed.

Lemma canonical_payload_unique w p1 p2 : canonical_payload w p1 -> canonical_payload w p2 -> p1 = p2.
Proof.
  destruct w as [v|v|bs|v]; cbn.
  - apply minimal_varint_unique.
  - intros (Hl1 & Hb1 & Hv1) (Hl2 & Hb2 & Hv2). eapply base256_inj; eauto; congruence.
  - intros (l1 & -> & H1 & _) (l2 & -> & H2 & _). f_equal. eapply minimal_varint_unique; eassumption.
  - intros (Hl1 & Hb1 & Hv1) (Hl2 & Hb2 & Hv2). eapply base256_inj; eauto; congruence.
Qed.

Lemma in_place mt sc os m f T v rs1 b1 w tb pb rs2 b2 pb' :
  schema_ok mt sc -> history mt sc os m -> sc f = Some (KSingle T) -> in_type T v ->
  ops_size os + 20 + pval_size v < 2 ^ 63 ->
  m_Encode m = b1 ++ tb ++ pb ++ b2 -> wire rs1 b1 -> tag_enc (f, w) tb -> payload_enc w pb -> wire rs2 b2 -> occ f rs2 = [] ->
  canonical_payload (wire_of T v) pb' -> length pb' = length pb ->
  exists m', m_set T m f v = Ok m' /\ m_Encode m' = b1 ++ tb ++ pb' ++ b2.
Proof.
  intros H1 H2 Hf Hin Hsz He Hw1 Htb Hpb Hw2 Ho2 Hcan Hlen.
  assert (Hps : 0 <= pval_size v) by (destruct v as [| | |[|]]; cbn; lia).
  destruct (hist_rep mt sc os m H1 H2) as (cs0 & HR & Hv & Hml); [lia|].
  destruct (set_bytes mt sc os m f T v H1 H2 Hf Hin Hsz) as (m' & tb0 & pb0 & Hs & Ht & Hp & Hcase).
  exists m'. split; [exact Hs|].
  assert (pb0 = pb') as -> by (eapply canonical_payload_unique; eassumption).
  apply wire_concrete in Hw1 as (cs1 & Hv1 & <- & <-). apply wire_concrete in Hw2 as (cs2 & Hv2 & <- & <-).
  set (c := mkCrec f w tb pb).
  assert (Hc : cvalid c) by (split; assumption).
  assert (Hall : Forall cvalid (cs1 ++ c :: cs2)) by (apply Forall_app; split; [|constructor]; assumption).
  assert (Hflat : m_Encode m = flat (cs1 ++ c :: cs2)).
  { rewrite He, flat_app. cbn [flat]. unfold cbytes. cbn [c ct cp]. rewrite <- !app_assoc. reflexivity. }
  destruct Hcase as [[Hn _]|(w0 & rs1' & b1' & pb1 & rs2' & b2' & Hrun & Hpw & Hw1' & Hw2' & Ho' & Hem & Hc')].
  - exfalso. rewrite Hv in Hn. unfold view in Hn. rewrite Hf in Hn.
    assert (cs0 = cs1 ++ c :: cs2) as ->.
    { apply flat_det; auto.
      - apply cmin_valid, (rep_min _ _ _ _ HR).
      - rewrite <- (rep_buf _ _ _ _ HR). lia.
      - rewrite <- (rep_buf _ _ _ _ HR). exact Hflat. }
    rewrite map_app, occ_app in Hn. unfold c in Hn. cbn [map occ crecord cf cw] in Hn.
    rewrite Z.eqb_refl, Ho2, last_only_snoc in Hn. discriminate.
  - apply wire_concrete in Hw1' as (cs1' & Hv1' & <- & <-). apply wire_concrete in Hw2' as (cs2' & Hv2' & <- & <-).
    assert (Hconf : conforms T w0).
    { eapply history_conforms; try eassumption; [lia|]. rewrite Hrun. reflexivity. }
    set (c' := mkCrec f w0 tb0 pb1).
    assert (Hcv' : cvalid c').
    { split; [|exact Hpw]. cbn [c' ct crecord]. destruct Ht as [Hf0 [Hmin _]]. split; [exact Hf0|].
      cbn [crecord c' cf cw fst snd] in *. destruct Hconf as [Ec _]. destruct (conforms_wire_of T v Hin) as [Ev _].
      rewrite Ec, <- Ev. exact Hmin. }
    assert (Heq : cs1 ++ c :: cs2 = cs1' ++ c' :: cs2').
    { apply flat_det; auto.
      - apply Forall_app; split; [|constructor]; assumption.
      - rewrite <- Hflat. unfold m_Encode in *. lia.
      - rewrite <- Hflat, Hem, flat_app. cbn [flat]. unfold cbytes. cbn [c' ct cp]. rewrite <- !app_assoc. reflexivity. }
    apply (last_split_unique f) in Heq as (-> & Hcc & ->); try assumption; try reflexivity.
    injection Hcc as -> -> ->. destruct Hc' as [[_ ->]|[Hne _]]; [reflexivity|congruence].
Qed.
