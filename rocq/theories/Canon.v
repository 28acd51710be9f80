(** * Size and order of the encoding of messages built with the API (C60, C61) *)
From Verif Require Import Api.
From Verif Require Import VarintFacts OffsetsFacts RecFacts DecodeFacts SetFacts GetFacts IterFacts ApiFacts ApiInv.
From Verif Require Import Core Core2 Core3 Core4 Core5 Core6.
From Coq Require Import ZifyBool.

(** A setter, AppendTo or Reset: the history contains no foreign bytes. *)
Definition built (o : op) : Prop := match o with ODecode _ _ => False | _ => True end.
(** The message with records [rs] has, for the declared fields, the contents [s]. *)
Definition has_contents (sc : schema) (rs : list record) (s : arec) : Prop :=
  (forall f T, sc f = Some (KSingle T) -> last_only (occ f rs) = s f) /\
  (forall f, sc f = Some KRepeated -> occ f rs = s f).

Definition ccanon (sc : schema) (c : crec) : Prop :=
  cmin c /\ canonical_payload (cw c) (cp c) /\ sc (cf c) <> None.

Lemma run_canon mt sc os : forall m cs,
  schema_ok mt sc -> Rep mt sc m cs -> sparse sc (map crecord cs) -> Forall (ccanon sc) cs ->
  Forall (op_ok (Z.of_nat (alen mt)) sc) os -> Forall built os -> zlen (mbuf m) + ops_size os < 2 ^ 63 ->
  exists m' cs', run mt sc m os = Ok m' /\ Rep mt sc m' cs' /\ sparse sc (map crecord cs') /\ Forall (ccanon sc) cs'.
Proof.
  induction os as [|o os IH]; intros m cs Hsc Hm Hsp Hca Hok Hos Hsz; [exists m, cs; auto|].
  apply Forall_cons in Hok as [Ho Hok]. apply Forall_cons in Hos as [Hs1 Hos]. rewrite ops_size_cons in Hsz.
  pose proof (ops_size_nonneg os) as Hnn. pose proof (op_size_nonneg o).
  assert (Hstep : exists m1 cs1, step mt sc m o = Ok m1 /\ Rep mt sc m1 cs1 /\ sparse sc (map crecord cs1) /\ Forall (ccanon sc) cs1 /\
                    zlen (mbuf m1) <= zlen (mbuf m) + op_size o).
  { assert (Hlen : forall m1, step mt sc m o = Ok m1 -> zlen (mbuf m1) <= zlen (mbuf m) + op_size o).
    { intros m1 E. destruct (rep_step mt sc m cs o (view sc (map crecord cs))) as (m2 & cs2 & E2 & _ & _ & Hl & _); try assumption; [reflexivity|lia|].
      rewrite E in E2. injection E2 as <-. exact Hl. }
    destruct o as [f v|f x| |rs bs]; cbn [op_ok op_size step built] in *; [| | |contradiction].
    - destruct Ho as (T & Hf & Hin). rewrite Hf in *.
      destruct (rep_set mt sc m cs f T v) as (m' & cs' & new & He & Hm' & Hnew & Hnf & Hnw & Hcan & Hpl & Hres & _); try assumption; [lia|].
      exists m', cs'. split_and!; auto; [eapply set_result_sparse; eassumption|].
      eapply set_result_Forall; [eassumption|exact Hca|]. split_and!; [done|rewrite Hnw; done|congruence].
    - destruct Ho as (Hf & Hx). destruct (rep_append mt sc m cs f x) as (m' & new & He & Hm' & Hnew & Hnf & Hnw & Hcan & _); try assumption;
        [unfold zlen in *; lia|].
      exists m', (cs ++ [new]). split_and!; auto.
      + intros g T Hg. rewrite map_app, occ_app. cbn [map occ crecord]. rewrite Hnf.
        destruct (Z.eqb_spec f g) as [<-|]; [congruence|]. rewrite app_nil_r. eapply Hsp, Hg.
      + apply Forall_app. split; [done|]. constructor; [|constructor]. split_and!; [done|rewrite Hnw; done|congruence].
    - destruct (rep_reset mt sc m (rep_len _ _ _ _ Hm)) as (m' & He & Hm' & _). exists m', []. split_and!; auto. intros g T Hg. cbn. lia. }
  destruct Hstep as (m1 & cs1 & He & Hm1 & Hsp1 & Hca1 & Hl1). cbn [run]. rewrite He. cbn [rbind].
  apply (IH m1 cs1); try assumption. lia.
Qed.

(** Few and small records: the occurrences of every field are a sublist of
    those of the other message. *)
Lemma occ_split f L1 w L2 cs : occ f (map crecord cs) = L1 ++ w :: L2 ->
  exists a c b, cs = a ++ c :: b /\ crecord c = (f, w) /\ occ f (map crecord a) = L1 /\ occ f (map crecord b) = L2.
Proof.
  revert L1. induction cs as [|c cs IH]; intros L1; cbn [map occ crecord]; [destruct L1; discriminate|].
  destruct (Z.eqb_spec (cf c) f) as [Hc|Hc].
  - destruct L1 as [|w1 L1]; cbn [app].
    + intros [= <- <-]. exists [], c, cs. split_and!; auto. unfold crecord. congruence.
    + intros [= <- E]. destruct (IH L1 E) as (a & d & b & -> & H1 & H2 & H3). exists (c :: a), d, b. split_and!; auto.
      cbn [map occ crecord]. rewrite Hc, Z.eqb_refl, H2. done.
  - intros E. destruct (IH L1 E) as (a & d & b & -> & H1 & H2 & H3). exists (c :: a), d, b. split_and!; auto.
    cbn [map occ crecord]. replace (cf c =? f) with false by lia. done.
Qed.

Lemma canon_smallest sc c d : ccanon sc c -> cvalid d -> crecord d = crecord c -> (length (cbytes c) <= length (cbytes d))%nat.
Proof.
  intros ((_ & Ht) & Hp & _) [Ht' Hp'] [= Ef Ew]. unfold cbytes. rewrite !app_length.
  assert (length (ct c) <= length (ct d))%nat.
  { destruct Ht as [_ [_ Ht]]. apply Ht. destruct Ht' as [_ Ht']. cbn [fst snd crecord] in *. rewrite <- Ef, <- Ew. done. }
  assert (length (cp c) <= length (cp d))%nat; [|lia].
  rewrite Ew in Hp'. destruct (cw c) as [v|v|bs|v]; cbn [canonical_payload payload_enc] in *.
  - apply Hp, Hp'.
  - destruct Hp as [-> _], Hp' as [-> _]. done.
  - destruct Hp as (lb & -> & Hl & _), Hp' as (lb' & -> & Hl' & _). rewrite !app_length. pose proof (proj2 Hl _ Hl'). lia.
  - destruct Hp as [-> _], Hp' as [-> _]. done.
Qed.

Lemma canon_flat sc cs : forall ds, Forall (ccanon sc) cs -> Forall cvalid ds ->
  (forall f, sublist (occ f (map crecord cs)) (occ f (map crecord ds))) ->
  (length (flat cs) <= length (flat ds))%nat.
Proof.
  induction cs as [|c cs IH]; intros ds Hc Hd Hs; [cbn; lia|].
  apply Forall_cons in Hc as [Hc1 Hc]. pose proof (Hs (cf c)) as H1. cbn [map occ crecord] in H1. rewrite Z.eqb_refl in H1.
  apply sublist_cons_l in H1 as (L1 & L2 & E & H1). apply occ_split in E as (a & d & b & -> & Ed & Ha & Hb).
  apply Forall_app in Hd as [Hda Hdb]. apply Forall_cons in Hdb as [Hd1 Hdb].
  assert (Hrec : (length (flat cs) <= length (flat (a ++ b)))%nat).
  { apply IH; [done|apply Forall_app; done|]. intros f. specialize (Hs f). rewrite !map_app, !occ_app in *. cbn [map occ crecord] in Hs.
    pose proof Ed as Ed'. unfold crecord in Ed'. injection Ed' as Ef Ew. rewrite Ef in Hs.
    destruct (Z.eqb_spec (cf c) f) as [Hf|Hf]; [|done]. rewrite <- Hf.
    rewrite Ha, Hb. clear -H1. apply (sublist_inserts_l L1) in H1. done. }
  pose proof (canon_smallest sc c d Hc1 Hd1 Ed). rewrite !flat_app in *. cbn [flat]. rewrite !app_length in *. lia.
Qed.

Lemma last_only_sublist ws : sublist (last_only ws) ws.
Proof.
  unfold last_only. destruct ws as [|w ws _] using rev_ind; [done|]. rewrite last_snoc.
  apply sublist_inserts_l. done.
Qed.
Lemma last_only_short ws : (length ws <= 1)%nat -> last_only ws = ws.
Proof. destruct ws as [|w [|w' ws]]; cbn; try done. lia. Qed.

Lemma spec_step_view sc rs s : has_contents sc rs s -> forall f, sc f <> None -> view sc rs f = s f.
Proof.
  intros [H1 H2] f Hf. unfold view. destruct (sc f) as [[T|]|] eqn:E; [eauto|eauto|done].
Qed.

(** The records of a message built with the API. *)
Lemma built_records mt sc os m :
  schema_ok mt sc -> history mt sc os m -> Forall built os -> ops_size os < 2 ^ 63 ->
  exists cs, mbuf m = flat cs /\ Forall (ccanon sc) cs /\ zlen (flat cs) < 2 ^ 63 /\
    forall f, occ f (map crecord cs) = match sc f with None => [] | Some _ => spec_run sc os f end.
Proof.
  intros Hsc Hh Hos Hsz. destruct (encode_wellformed mt sc os m Hsc Hh Hsz) as (rs & Hw & _ & Hs1 & Hs2).
  destruct (hist_rep mt sc os m) as (cs0 & Hm0 & _ & Hl); try assumption.
  destruct Hh as [Hok Hr].
  destruct (run_canon mt sc os (msg_zero mt) []) as (m' & cs & He & Hm & Hsp & Hca); try assumption.
  - apply rep_zero.
  - intros f T Hf. cbn. lia.
  - constructor.
  - rewrite Hr in He. injection He as <-. exists cs. pose proof (rep_buf _ _ _ _ Hm) as Hb.
    assert (Hlt : zlen (flat cs) < 2 ^ 63) by (rewrite <- Hb; lia).
    split_and!; auto. intros f.
    assert (Ers : rs = map crecord cs).
    { apply (wire_det rs (map crecord cs) (flat cs)); [exact Hlt| |].
      - unfold m_Encode in Hw. rewrite Hb in Hw. apply wire_min_wire. done.
      - apply wire_concrete. exists cs. split_and!; auto. apply cmin_valid. eapply Forall_impl; [exact Hca|]. intros c [Hc _]. done. }
    subst rs. destruct (sc f) as [k|] eqn:Ef.
    + destruct k as [T|].
      * rewrite <- (Hs1 f T Ef). symmetry. apply last_only_short. eapply Hsp, Ef.
      * apply Hs2. congruence.
    + clear -Hca Ef. induction cs as [|c cs IH]; [done|]. apply Forall_cons in Hca as [(_ & _ & Hc) Hca].
      cbn [map occ crecord]. destruct (Z.eqb_spec (cf c) f) as [<-|]; [done|]. apply IH, Hca.
Qed.

Lemma encode_minimal mt sc os m rs bs :
  schema_ok mt sc -> history mt sc os m -> Forall built os -> ops_size os < 2 ^ 63 ->
  wire rs bs -> has_contents sc rs (spec_run sc os) -> (length (m_Encode m) <= length bs)%nat.
Proof.
  intros Hsc Hh Hos Hsz Hw [Hc1 Hc2]. destruct (built_records mt sc os m Hsc Hh Hos Hsz) as (cs & Hb & Hca & _ & Hocc).
  apply wire_concrete in Hw as (ds & Hv & <- & <-). unfold m_Encode. rewrite Hb.
  apply (canon_flat sc); [done|done|]. intros f. rewrite Hocc. destruct (sc f) as [[T|]|] eqn:Ef; [| |apply sublist_nil_l].
  - rewrite <- (Hc1 f T Ef). apply last_only_sublist.
  - rewrite <- (Hc2 f Ef). done.
Qed.

Lemma built_contents mt sc os m :
  schema_ok mt sc -> history mt sc os m -> Forall built os -> ops_size os < 2 ^ 63 ->
  exists rs, wire rs (m_Encode m) /\ has_contents sc rs (spec_run sc os).
Proof.
  intros Hsc Hh Hos Hsz. destruct (encode_wellformed mt sc os m Hsc Hh Hsz) as (rs & Hw & _ & Hs1 & Hs2).
  exists rs. split; [apply wire_min_wire; done|]. split; [exact Hs1|]. intros f Hf. apply Hs2. congruence.
Qed.

(** ** Permutations *)
Lemma canon_unique sc c d : ccanon sc c -> ccanon sc d -> crecord c = crecord d -> c = d.
Proof.
  intros ((Hv & [_ Ht]) & Hp & _) ((Hv' & [_ Ht']) & Hp' & _) E. pose proof E as [= Ef Ew].
  rewrite <- E in Ht'. pose proof (minimal_varint_unique _ _ _ Ht Ht') as Et.
  apply crec_det; [done|done|done|]. rewrite Ew in Hp.
  assert (Hfix : forall n v a b, is_fixed n v a -> is_fixed n v b -> a = b).
  { clear. induction n as [|n IH]; intros v [|x a] [|y b] (L1 & F1 & E1) (L2 & F2 & E2); try done.
    cbn [length base256] in *. apply Forall_cons in F1 as [B1 F1]. apply Forall_cons in F2 as [B2 F2]. unfold is_byte in *.
    assert (x = y /\ base256 a = base256 b) as [-> E] by lia. f_equal.
    apply (IH (base256 a)); split_and!; try done; lia. }
  destruct (cw d) as [v|v|bs|v]; cbn [canonical_payload] in *.
  - eapply minimal_varint_unique; eassumption.
  - eapply Hfix; eassumption.
  - destruct Hp as (lb & -> & Hl & _), Hp' as (lb' & -> & Hl' & _). f_equal. eapply minimal_varint_unique; eassumption.
  - eapply Hfix; eassumption.
Qed.

Lemma canon_perm sc cs : forall ds, Forall (ccanon sc) cs -> Forall (ccanon sc) ds ->
  (forall f, occ f (map crecord cs) = occ f (map crecord ds)) -> Permutation cs ds.
Proof.
  induction cs as [|c cs IH]; intros ds Hc Hd Hs.
  { destruct ds as [|d ds]; [done|]. specialize (Hs (cf d)). cbn [map occ crecord] in Hs. rewrite Z.eqb_refl in Hs. discriminate. }
  apply Forall_cons in Hc as [Hc1 Hc]. pose proof (Hs (cf c)) as H1. cbn [map occ crecord] in H1. rewrite Z.eqb_refl in H1. symmetry in H1.
  destruct (occ_split (cf c) [] _ _ _ H1) as (a & d & b & -> & Ed & Ha & Hb).
  apply Forall_app in Hd as [Hda Hdb]. apply Forall_cons in Hdb as [Hd1 Hdb].
  assert (d = c) as -> by (eapply canon_unique; eauto).
  rewrite <- Permutation_middle. constructor. apply IH; [done|apply Forall_app; done|].
  intros f. specialize (Hs f). rewrite !map_app, !occ_app in *. cbn [map occ crecord] in Hs.
  destruct (Z.eqb_spec (cf c) f) as [Hf|Hf]; [|done]. rewrite <- Hf in *. rewrite Ha in *. cbn [app] in *. congruence.
Qed.

Lemma built_perm mt sc os1 m1 os2 m2 ps1 ps2 :
  schema_ok mt sc -> history mt sc os1 m1 -> history mt sc os2 m2 -> Forall built os1 -> Forall built os2 ->
  ops_size os1 < 2 ^ 63 -> ops_size os2 < 2 ^ 63 ->
  (forall f, sc f <> None -> spec_run sc os1 f = spec_run sc os2 f) ->
  wire_parts ps1 (m_Encode m1) -> wire_parts ps2 (m_Encode m2) -> Permutation ps1 ps2.
Proof.
  intros Hsc Hh1 Hh2 Hb1 Hb2 Hs1 Hs2 Heq Hp1 Hp2.
  destruct (built_records mt sc os1 m1 Hsc Hh1 Hb1 Hs1) as (cs & E1 & Hc1 & L1 & O1).
  destruct (built_records mt sc os2 m2 Hsc Hh2 Hb2 Hs2) as (ds & E2 & Hc2 & L2 & O2).
  apply wire_parts_concrete in Hp1 as (cs' & V1 & <- & F1). apply wire_parts_concrete in Hp2 as (ds' & V2 & <- & F2).
  unfold m_Encode in *. rewrite E1 in F1. rewrite E2 in F2.
  assert (Hva : forall l, Forall (ccanon sc) l -> Forall cvalid l).
  { intros l H. apply cmin_valid. eapply Forall_impl; [exact H|]. intros c [Hc _]. done. }
  rewrite (flat_det cs' cs), (flat_det ds' ds); auto; [|rewrite F2; done|rewrite F1; done].
  apply Permutation_map. apply (canon_perm sc); [done|done|]. intros f. rewrite O1, O2.
  destruct (sc f) eqn:Ef; [|done]. apply Heq. congruence.
Qed.
