(** * Accessors after Decode of a message that ends inside a record *)
From Verif Require Import Api.
From Verif Require Export SpecCost.
From Verif Require Import VarintFacts OffsetsFacts RecFacts DecodeFacts GetFacts IterFacts ApiFacts ApiInv Core.
From Coq Require Import ZifyBool.

Lemma decode_cut_idx fuel cs c k reps o :
  Forall cvalid cs -> cvalid c -> zlen (flat cs ++ cbytes c) < 2 ^ 63 ->
  (forall c', c' ∈ cs -> in_range o (cf c')) -> in_range o (cf c) ->
  (0 < k < length (cbytes c))%nat -> (length cs + 1 < fuel)%nat ->
  exists o', Decode fuel (flat cs ++ take k (cbytes c)) o reps = Ok (Some ErrUnexpectedEOF, o') /\
    owf o' /\ zlen (oa o') = zlen (oa o) /\
    (forall g, in_range o g -> g <> cf c \/ (k <= length (ct c))%nat -> ofun o' g = pick reps g (poss g 0 cs)) /\
    (is_repeated reps (cf c) = false -> (length (ct c) < k)%nat -> ofun o' (cf c) = Some (zlen (flat cs ++ ct c))).
Proof.
  intros Hcs Hc Hlen Hr Hrc Hk Hfuel. unfold Decode.
  destruct (offsets_clear_ok o) as (Hwf0 & Hl0 & Hf0 & Hn0).
  replace fuel with (length cs + S (S (fuel - length cs - 2)))%nat by lia.
  rewrite zlen_app in Hlen. pose proof (zlen_nonneg (flat cs)).
  assert (Htk : zlen (take k (cbytes c)) = Z.of_nat k) by (unfold zlen; rewrite take_length; lia).
  assert (Hck : Z.of_nat k < zlen (cbytes c)) by (unfold zlen; lia).
  destruct (decode_records (S (S (fuel - length cs - 2))) [] cs (take k (cbytes c)) reps (offsets_clear o))
    as (o1 & Heq & Hwf1 & Hl1 & Hi1 & Hn1).
  - constructor.
  - assumption.
  - cbn [flat app]. rewrite zlen_app. lia.
  - exact Hwf0.
  - apply indexes_nil, Hf0.
  - intros c' Hc'. unfold in_range. rewrite Hl0. apply Hr, Hc'.
  - cbn [flat app] in *. rewrite zlen_nil, Z.add_0_l in Heq. rewrite Heq. clear Heq.
    assert (Hi : forall g, in_range o g -> ofun o1 g = pick reps g (poss g 0 cs)).
    { intros g Hg. apply Hi1. unfold in_range in *. rewrite Hl1, Hl0. exact Hg. }
    generalize (fuel - length cs - 2)%nat as fuel'. intros fuel'.
    assert (Hl : zlen (flat cs ++ take k (cbytes c)) = zlen (flat cs) + Z.of_nat k)
      by (rewrite zlen_app, Htk; reflexivity).
    remember (S fuel') as fuel1 eqn:Hf1. cbn [decode_loop].
    replace (zlen (flat cs) =? zlen (flat cs ++ take k (cbytes c))) with false by lia.
    replace (zlen (flat cs ++ take k (cbytes c)) <? zlen (flat cs)) with false by lia.
    rewrite slice_from_app. cbn [rbind].
    destruct Hc as [Ht Hp]. pose proof (tag_len _ _ Ht) as Htl. pose proof (payload_len_pos _ _ Hp) as Hpl.
    assert (Hlc : zlen (cbytes c) = zlen (ct c) + zlen (cp c)) by (unfold cbytes; apply zlen_app).
    destruct (decide (k < length (ct c))%nat) as [Hlt|Hge].
    { unfold cbytes. rewrite take_app_le by lia.
      rewrite (varint_prefix _ _ _ (proj2 Ht) Hlt).
      exists o1. split_and!; [reflexivity|done|congruence| |lia]. intros g Hg _. apply Hi, Hg. }
    unfold cbytes. rewrite take_app_ge by lia. fold (cbytes c).
    rewrite (uvarint_spec _ _ (take (k - length (ct c)) (cp c)) (proj2 Ht)).
    replace (zlen (ct c) =? 0) with false by lia.
    rewrite (i64_small (zlen (flat cs) + zlen (ct c))) by lia.
    assert (Hl' : zlen (flat cs ++ ct c ++ take (k - length (ct c)) (cp c)) = zlen (flat cs) + Z.of_nat k).
    { rewrite <- Hl. unfold cbytes. rewrite take_app_ge by lia. reflexivity. }
    rewrite Hl'.
    destruct (Z.leb_spec (zlen (flat cs) + Z.of_nat k) (zlen (flat cs) + zlen (ct c))) as [Hle|Hgt].
    { exists o1. split_and!; [reflexivity|done|congruence| |unfold zlen in *; lia]. intros g Hg _. apply Hi, Hg. }
    assert (Hkt : (length (ct c) < k)%nat) by (unfold zlen in *; lia).
    destruct (tag_field _ _ Ht) as (_ & -> & ->). cbn [crecord fst snd].
    rewrite u64_small by (pows; lia).
    fold (dec_upd reps o1 (cf c) (zlen (flat cs) + zlen (ct c))).
    destruct (dec_upd_ok reps o1 (cf c) (zlen (flat cs) + zlen (ct c)) Hwf1)
      as (o2 & -> & Hwf2 & Hl2 & Hne2 & He2 & _); [unfold in_range in *; lia|pows; lia|]. cbn [rbind].
    assert (Hi2 : forall g, in_range o g -> g <> cf c \/ (k <= length (ct c))%nat -> ofun o2 g = pick reps g (poss g 0 cs)).
    { intros g Hg [Hg2|Hg2]; [|lia]. rewrite Hne2 by exact Hg2. apply Hi, Hg. }
    assert (Hi3 : is_repeated reps (cf c) = false -> (length (ct c) < k)%nat -> ofun o2 (cf c) = Some (zlen (flat cs ++ ct c))).
    { intros Hnr _. rewrite He2, Hnr, zlen_app. reflexivity. }
    rewrite app_assoc. rewrite slice_from_app' by (rewrite zlen_app; reflexivity). cbn [rbind].
    destruct (fieldDataSize_cut (cw c) (cp c) (k - length (ct c)) Hp) as [-> | ->];
      [lia|unfold zlen in *; lia| |]; cbn [rbind].
    + exists o2. split_and!; [reflexivity|done|congruence|exact Hi2|exact Hi3].
    + replace (zlen (cp c) =? 0) with false by lia.
      rewrite i64_small by lia. rewrite <- app_assoc.
      subst fuel1. cbn [decode_loop]. rewrite Hl'.
      replace (zlen (flat cs) + zlen (ct c) + zlen (cp c) =? zlen (flat cs) + Z.of_nat k) with false by lia.
      replace (zlen (flat cs) + Z.of_nat k <? zlen (flat cs) + zlen (ct c) + zlen (cp c)) with true by lia.
      exists o2. split_and!; [reflexivity|done|congruence|exact Hi2|exact Hi3].
Qed.

(** Getters of a message with bytes behind the last complete record. *)
Lemma m_get_pick reps T o cs junk f :
  Forall cvalid cs -> owf o -> ofun o f = pick reps f (poss f 0 cs) -> in_range o f -> is_repeated reps f = false ->
  zlen (flat cs ++ junk) < 2 ^ 63 ->
  (forall w, last (occ f (map crecord cs)) = Some w -> conforms T w) ->
  m_get T (mkMsg (flat cs ++ junk) o) f = Ok (read_single T (occ f (map crecord cs))).
Proof.
  intros Hv Hwf Hi Hr Hnr Hlen Hc. unfold read_single.
  destruct (decide (occ f (map crecord cs) = [])) as [Hocc|Hocc].
  - rewrite Hocc. cbn. apply m_get_none; cbn [moff]; try assumption.
    rewrite Hi, (proj2 (poss_nil_iff f 0 cs) Hocc). apply pick_nil.
  - destruct (split_last f cs Hocc) as (pre & c & post & -> & Hcf & Hpost).
    assert (Hlast : last (occ f (map crecord (pre ++ c :: post))) = Some (cw c)).
    { rewrite map_app, occ_app. cbn [map occ crecord]. rewrite Hcf, Z.eqb_refl, Hpost. apply last_snoc. }
    rewrite Hlast in *.
    apply Forall_app in Hv as [Hv1 Hv2]. apply Forall_cons in Hv2 as [[Ht Hp] Hv2].
    assert (Hflat : flat (pre ++ c :: post) ++ junk = (flat pre ++ ct c) ++ cp c ++ (flat post ++ junk)).
    { rewrite flat_app. cbn [flat]. unfold cbytes. rewrite <- !app_assoc. reflexivity. }
    rewrite Hflat in *. eapply m_get_some; eauto.
    rewrite Hi. unfold pick. rewrite Hnr, poss_app. cbn [poss]. rewrite Hcf, Z.eqb_refl.
    rewrite (proj2 (poss_nil_iff f _ post) Hpost), last_snoc, zlen_app. reflexivity.
Qed.

(** Iteration over complete records with a cut record behind them whose size can
    still be read. *)
Fixpoint next_rest_j (f : Z) (cs : list crec) (junk : list Z) : option (list Z) :=
  match cs with
  | [] => None
  | c :: cs => if cf c =? f then Some (cp c ++ flat cs ++ junk) else next_rest_j f cs junk
  end.

Definition sized (w : wval) (p pb : list Z) : Prop := fieldDataSize (wire_type w) p = Ok (zlen pb).

Lemma find_loop_cut f c p : forall post pre fuel,
  tag_enc (crecord c) (ct c) -> cf c <> f -> sized (cw c) p (cp c) -> zlen p < zlen (cp c) ->
  Forall cvalid post -> zlen (pre ++ flat post ++ ct c ++ cp c) < 2 ^ 63 -> (length post + 1 < fuel)%nat ->
  find_loop fuel (pre ++ flat post ++ ct c ++ p) f (zlen pre) = Ok (next_rest_j f post (ct c ++ p)).
Proof.
  induction post as [|c' post IH]; intros pre fuel Htc Hcf Hs Hpl Hv Hlen Hfuel; (destruct fuel as [|fuel]; [lia|]).
  - destruct fuel as [|fuel]; [cbn [length] in Hfuel; lia|]. cbn [flat app next_rest_j] in *.
    pose proof (tag_len _ _ Htc) as Htl. rewrite !zlen_app in Hlen. pose proof (zlen_nonneg pre). pose proof (zlen_nonneg p).
    remember (S fuel) as fuel1. cbn [find_loop]. rewrite !zlen_app. replace (zlen pre <? _) with true by lia.
    rewrite slice_from_app. cbn [rbind]. rewrite (uvarint_spec _ _ p (proj2 Htc)).
    destruct (tag_field _ _ Htc) as (_ & -> & ->). cbn [crecord fst snd]. cbn zeta.
    rewrite (i64_small (zlen pre + zlen (ct c))) by lia.
    rewrite (proj2 (Z.eqb_neq _ _) Hcf).
    assert (Hsf : slice_from (pre ++ ct c ++ p) (zlen pre + zlen (ct c)) = Ok p).
    { rewrite app_assoc. apply slice_from_app'. rewrite zlen_app. reflexivity. }
    rewrite Hsf. cbn [rbind]. rewrite Hs. cbn [rbind]. rewrite i64_small by lia.
    subst fuel1. cbn [find_loop]. rewrite !zlen_app. replace (_ <? _) with false by lia. reflexivity.
  - apply Forall_cons in Hv as [[Ht Hp] Hv].
    pose proof (tag_len _ _ Ht) as Htl. pose proof (payload_len_pos _ _ Hp) as Hpl'.
    cbn [flat find_loop next_rest_j]. cbn [flat] in Hlen. unfold cbytes in *.
    rewrite <- !app_assoc in *. rewrite !zlen_app in *.
    pose proof (zlen_nonneg pre). pose proof (zlen_nonneg (flat post)). pose proof (zlen_nonneg (ct c)). pose proof (zlen_nonneg p).
    replace (zlen pre <? _) with true by lia. rewrite slice_from_app. cbn [rbind].
    rewrite (uvarint_spec _ _ (cp c' ++ flat post ++ ct c ++ p) (proj2 Ht)).
    destruct (tag_field _ _ Ht) as (_ & -> & ->). cbn [crecord fst snd]. cbn zeta.
    rewrite (i64_small (zlen pre + zlen (ct c'))) by lia.
    assert (Hsf : slice_from (pre ++ ct c' ++ cp c' ++ flat post ++ ct c ++ p) (zlen pre + zlen (ct c')) = Ok (cp c' ++ flat post ++ ct c ++ p)).
    { rewrite app_assoc. apply slice_from_app'. rewrite zlen_app. reflexivity. }
    rewrite Hsf. cbn [rbind].
    destruct (cf c' =? f); [reflexivity|].
    rewrite (fieldDataSize_ok (cw c') (cp c') _ Hp) by lia. cbn [rbind].
    rewrite i64_small by lia.
    replace (pre ++ ct c' ++ cp c' ++ flat post ++ ct c ++ p) with ((pre ++ ct c' ++ cp c') ++ flat post ++ ct c ++ p) by (rewrite <- !app_assoc; reflexivity).
    replace (zlen pre + zlen (ct c') + zlen (cp c')) with (zlen (pre ++ ct c' ++ cp c')) by (rewrite !zlen_app; lia).
    cbn [length] in Hfuel. apply IH; try done; [|lia]. rewrite !zlen_app. lia.
Qed.

Lemma FindNextField_cut f c p x pb post :
  tag_enc (crecord c) (ct c) -> cf c <> f -> sized (cw c) p (cp c) -> zlen p < zlen (cp c) ->
  payload_enc (WBytes x) pb -> Forall cvalid post -> zlen (pb ++ flat post ++ ct c ++ cp c) < 2 ^ 63 ->
  FindNextField (find_fuel (Some (pb ++ flat post ++ ct c ++ p))) (Some (pb ++ flat post ++ ct c ++ p)) f =
    Ok (next_rest_j f post (ct c ++ p), Some x).
Proof.
  intros Htc Hcf Hs Hpl (lb & -> & Hv & Hb) Hpost Hlen. unfold FindNextField. cbn [find_fuel]. rewrite <- !app_assoc in *.
  rewrite (uvarint_spec _ _ (x ++ flat post ++ ct c ++ p) Hv). fold (zlen x).
  pose proof (is_varint_len _ _ Hv). pose proof (zlen_nonneg x). pose proof (zlen_nonneg (flat post)). pose proof (zlen_nonneg (ct c)). pose proof (zlen_nonneg p).
  rewrite !zlen_app in Hlen.
  rewrite (i64_small (zlen x)) by lia. rewrite i64_small by lia.
  rewrite slice_range_app by lia. cbn [rbind].
  pose proof (find_loop_cut f c p post (lb ++ x) (fuel_of (lb ++ x ++ flat post ++ ct c ++ p)) Htc Hcf Hs Hpl Hpost) as E.
  rewrite <- !app_assoc in E. rewrite (zlen_app lb x) in E. rewrite E; [reflexivity|rewrite !zlen_app; lia|].
  unfold fuel_of. rewrite !app_length. pose proof (length_flat post Hpost). pose proof (tag_len _ _ Htc). unfold zlen in *. lia.
Qed.

Lemma iterate_cut mt f c p : forall n cs m,
  tag_enc (crecord c) (ct c) -> cf c <> f -> sized (cw c) p (cp c) -> zlen p < zlen (cp c) ->
  Forall cvalid cs -> all_bytes f cs -> zlen (flat cs ++ ct c ++ cp c) < 2 ^ 63 ->
  iterate n mt (next_rest_j f cs (ct c ++ p)) f m = decode_upto n mt m (read_repeated (occ f (map crecord cs))).
Proof.
  intros n cs m Htc Hcf Hs Hpl. revert n m. induction cs as [|c' cs IH]; intros n m Hv Hb Hlen; (destruct n as [|n]; [reflexivity|]).
  - reflexivity.
  - cbn [map occ crecord next_rest_j] in *. apply Forall_cons in Hv as [[Ht Hp] Hv].
    cbn [flat] in Hlen. unfold cbytes in Hlen. rewrite !zlen_app in Hlen.
    pose proof (zlen_nonneg (ct c')). pose proof (zlen_nonneg (cp c')). pose proof (zlen_nonneg (flat cs)).
    assert (Hb' : all_bytes f cs) by (intros c1 Hc1; apply Hb; right; exact Hc1).
    destruct (Z.eqb_spec (cf c') f) as [Hc'|Hc'].
    + destruct (Hb c' ltac:(left) Hc') as [x Hx]. rewrite Hx in Hp. cbn [iterate it_Next].
      unfold it_Next. rewrite (FindNextField_cut f c p x _ _ Htc Hcf Hs Hpl Hp Hv) by (rewrite !zlen_app; lia). cbn [rbind].
      cbn [read_repeated map decode_upto]. rewrite Hx. cbn [bytes_of].
      destruct (m_Decode mt m x) as [[e m']| | |]; cbn [rbind]; try reflexivity.
      rewrite IH; [reflexivity|done|done|rewrite !zlen_app; lia].
    + rewrite (IH (S n) m); [reflexivity|done|done|rewrite !zlen_app; lia].
Qed.

Lemma m_Iter_pick reps o cs junk f :
  owf o -> ofun o f = pick reps f (poss f 0 cs) -> in_range o f -> is_repeated reps f = true ->
  m_Iter (mkMsg (flat cs ++ junk) o) f = Ok (next_rest_j f cs junk).
Proof.
  intros Hwf Ho Hr Hrep. unfold m_Iter, GetRepeatedNonPacked. cbn [mbuf moff].
  unfold pick in Ho. rewrite Hrep in Ho.
  destruct (decide (occ f (map crecord cs) = [])) as [Hocc|Hocc].
  - rewrite (proj2 (poss_nil_iff f 0 cs) Hocc) in Ho. cbn in Ho.
    unfold with_offset. pose proof (offsets_get_eq o f Hwf Hr) as Hg. rewrite Ho in Hg. rewrite Hg. cbn [rbind].
    f_equal. clear -Hocc. induction cs as [|c cs IH]; cbn [next_rest_j map occ crecord] in *; [reflexivity|].
    destruct (cf c =? f); [discriminate|apply IH, Hocc].
  - destruct (split_first f cs Hocc) as (pre & c & post & -> & Hc & Hpre).
    rewrite poss_app, (proj2 (poss_nil_iff f 0 pre) Hpre) in Ho. cbn [poss app] in Ho.
    rewrite Hc, Z.eqb_refl in Ho. cbn [head] in Ho. rewrite Z.add_0_l in Ho.
    unfold with_offset. pose proof (offsets_get_eq o f Hwf Hr) as Hg. rewrite Ho in Hg. rewrite Hg. cbn [rbind].
    rewrite flat_app. cbn [flat]. unfold cbytes.
    replace ((flat pre ++ (ct c ++ cp c) ++ flat post) ++ junk) with ((flat pre ++ ct c) ++ cp c ++ flat post ++ junk)
      by (rewrite <- !app_assoc; reflexivity).
    rewrite slice_from_app' by (rewrite zlen_app; reflexivity). cbn [rbind].
    f_equal. clear -Hpre Hc. induction pre as [|c' pre IH]; cbn [next_rest_j map occ crecord app] in *.
    + rewrite Hc, Z.eqb_refl. reflexivity.
    + destruct (cf c' =? f); [discriminate|apply IH, Hpre].
Qed.

Lemma size_known_sized w tb pb k :
  payload_enc w pb -> zlen pb < 2 ^ 63 -> size_known w tb pb k ->
  (length tb <= k)%nat /\ sized w (take (k - length tb) pb) pb.
Proof.
  intros Hp Hl [[Hw Hk]|(x & lb & -> & -> & Hv & Hk)]; unfold sized, fieldDataSize, WireVarint, WireFixed32, WireFixed64, WireBytes.
  - split; [done|]. destruct w; cbn [wire_type payload_enc] in *; try lia; apply is_fixed_len in Hp; rewrite Hp; reflexivity.
  - rewrite app_length in Hk. split; [lia|]. cbn [wire_type]. cbn [Z.eqb Pos.eqb].
    rewrite take_app_ge by lia. rewrite (uvarint_spec _ lb _ Hv).
    pose proof (is_varint_len _ _ Hv). replace (zlen lb =? 0) with false by lia.
    rewrite zlen_app in *. fold (zlen x). pose proof (zlen_nonneg x).
    rewrite !i64_small by (rewrite ?i64_small; lia). reflexivity.
Qed.

Lemma after_cut mt m0 rs b0 f w tb pb k :
  of_type mt m0 -> wire rs b0 -> Forall (fun r => r.1 < Z.of_nat (alen mt)) rs ->
  tag_enc (f, w) tb -> payload_enc w pb -> f < Z.of_nat (alen mt) ->
  (0 < k < length (tb ++ pb))%nat -> Z.of_nat (length (b0 ++ tb ++ pb)) < 2 ^ 63 ->
  exists m, m_Decode mt m0 (b0 ++ take k (tb ++ pb)) = Ok (Some ErrUnexpectedEOF, m) /\
    (forall g T, 0 <= g < Z.of_nat (alen mt) -> ~ In g (reps mt) -> g <> f \/ (k <= length tb)%nat ->
       (forall w', last (occ g rs) = Some w' -> conforms T w') ->
       m_get T m g = Ok (read_single T (occ g rs))) /\
    (forall g, 0 <= g < Z.of_nat (alen mt) -> In g (reps mt) -> g <> f -> size_known w tb pb k ->
       Forall (fun w' => wire_type w' = 2) (occ g rs) ->
       forall mt' x n, (length (occ g rs) < n)%nat ->
         m_iterate n mt' m g x = decode_each mt' x (read_repeated (occ g rs))).
Proof.
  intros H0 Hw Hr Ht Hp Hf Hk Hl. apply wire_concrete in Hw as (cs & Hv & <- & <-). rewrite Forall_map in Hr.
  apply of_type_zlen in H0. set (c := mkCrec f w tb pb).
  assert (Hc : cvalid c) by (split; assumption).
  change (tb ++ pb) with (cbytes c) in *. fold (zlen (flat cs ++ cbytes c)) in Hl.
  pose proof Ht as [Hge _]. cbn in Hge.
  destruct (decode_cut_idx (fuel_of (flat cs ++ take k (cbytes c))) cs c k (reps mt) (moff m0)) as (o' & He & Hwf & Hl' & Hi & _); try assumption.
  - intros c' Hc'. rewrite Forall_forall in Hv, Hr. specialize (Hr c' Hc'). cbn in Hr.
    destruct (Hv c' Hc') as [[Hge' _] _]. cbn in Hge'. unfold in_range. lia.
  - unfold in_range. change (cf c) with f. lia.
  - unfold fuel_of. rewrite app_length, take_length. pose proof (length_flat cs Hv). lia.
  - exists (mkMsg (flat cs ++ take k (cbytes c)) o'). unfold m_Decode. rewrite He. cbn [rbind].
    assert (Hlen2 : zlen (flat cs ++ take k (cbytes c)) < 2 ^ 63).
    { rewrite zlen_app in *. assert (zlen (take k (cbytes c)) <= zlen (cbytes c)) by (unfold zlen; rewrite take_length; lia). lia. }
    split_and!; [reflexivity| |].
    + intros g T Hg Hnr Hcase Hcf. apply (m_get_pick (reps mt)); try assumption.
      * apply Hi; [unfold in_range; lia|]. exact Hcase.
      * unfold in_range. lia.
      * destruct (is_repeated (reps mt) g) eqn:E; [|reflexivity]. apply is_repeated_In in E. contradiction.
    + intros g Hg Hin Hgf Hsk Hb mt' x n Hn. unfold m_iterate.
      rewrite (m_Iter_pick (reps mt)); try assumption; [|apply Hi; [unfold in_range; lia|left; exact Hgf]|unfold in_range; lia|apply is_repeated_In, Hin].
      cbn [rbind]. destruct (size_known_sized w tb pb k Hp) as [Hkt Hs]; [|exact Hsk|].
      { unfold c, cbytes in Hl. cbn [ct cp] in Hl. rewrite !zlen_app in Hl. pose proof (zlen_nonneg (flat cs)). pose proof (zlen_nonneg tb). lia. }
      replace (take k (cbytes c)) with (ct c ++ take (k - length tb) pb).
      2:{ unfold cbytes. cbn [ct cp c]. rewrite take_app_ge by lia. reflexivity. }
      rewrite (iterate_cut mt' g c); try assumption.
      * apply decode_upto_each. unfold read_repeated. rewrite map_length. exact Hn.
      * cbn [cf c]. congruence.
      * unfold c, cbytes in Hk. cbn [ct cp] in Hk. rewrite app_length in Hk. unfold zlen. rewrite take_length. cbn [cp c]. lia.
      * intros c1 Hc1 Hcf. rewrite Forall_forall in Hb.
        assert (Hwt : wire_type (cw c1) = 2).
        { apply Hb. clear -Hc1 Hcf. induction cs as [|c' cs IH]; [inversion Hc1|].
          cbn [map occ crecord]. apply elem_of_cons in Hc1 as [->|Hc1].
          - rewrite Hcf, Z.eqb_refl. left.
          - destruct (cf c' =? g); [right|]; apply IH, Hc1. }
        destruct (cw c1); try discriminate. eauto.
Qed.

(** The getter of the cut field itself. *)
Lemma m_get_cut T o f l1 w pb p k :
  owf o -> in_range o f -> ofun o f = Some (zlen l1) ->
  payload_enc w pb -> wire_type w = ptype_wire_type T -> zlen (l1 ++ pb) < 2 ^ 63 ->
  p = take k pb -> (k < length pb)%nat ->
  (size_known w [] pb k -> m_get T (mkMsg (l1 ++ p) o) f = PastLen) /\
  (~ size_known w [] pb k -> m_get T (mkMsg (l1 ++ p) o) f =
     Ok (value_of T match w with WBytes _ => WBytes [] | _ => WVarint 0 end)).
Proof.
  intros Hwf Hr Ho Hp Hwt Hlen -> Hk. unfold m_get. cbn [mbuf moff].
  rewrite !zlen_app in Hlen. pose proof (zlen_nonneg l1). pose proof (zlen_nonneg pb).
  assert (Hlt : zlen (take k pb) = Z.of_nat k) by (unfold zlen; rewrite take_length; lia).
  assert (Hkp : Z.of_nat k < zlen pb) by (unfold zlen; lia).
  assert (Hll : zlen (l1 ++ take k pb) = zlen l1 + Z.of_nat k) by (rewrite zlen_app; lia).
  assert (Hsf : slice_from (l1 ++ take k pb) (zlen l1) = Ok (take k pb)) by apply slice_from_app.
  destruct w as [v|v|bs|v].
  - split; [intros [[[H1|H1] _]|(x & lb & H1 & _)]; discriminate H1|intros _].
    pose proof (varint_prefix v pb k Hp Hk) as Hu.
    assert (Hz : varint (take k pb) = (0, 0)) by (unfold varint; rewrite Hu; reflexivity).
    destruct T; try discriminate Hwt; cbn [value_of];
      unfold GetBool, GetInt32, GetInt64, GetUint32, GetUint64, GetZigZagInt32, GetZigZagInt64;
      rewrite (with_offset_some _ _ _ _ _ Hwf Hr Ho), Hsf; cbn [rbind]; rewrite ?Hu, ?Hz; reflexivity.
  - cbn [payload_enc wire_type] in *. apply is_fixed_len in Hp.
    split; [intros _|intros Hn; exfalso; apply Hn; left; split; [left; reflexivity|cbn; lia]].
    assert (Hs : slice_range (l1 ++ take k pb) (zlen l1) (u64 (zlen l1 + 8)) = PastLen).
    { rewrite u64_small by (pows; lia). unfold slice_range. rewrite Hll.
      replace ((0 <=? zlen l1) && (zlen l1 <=? zlen l1 + 8)) with true by lia. replace (_ <=? _) with false by lia. reflexivity. }
    destruct T; try discriminate Hwt; unfold GetFixedUint64, GetFixedInt64, GetFloat64;
      rewrite (with_offset_some _ _ _ _ _ Hwf Hr Ho), Hs; reflexivity.
  - cbn [payload_enc wire_type] in *. destruct Hp as (lb & -> & Hv & Hb).
    rewrite zlen_app in Hlen, Hkp. pose proof (zlen_nonneg lb). pose proof (zlen_nonneg bs). rewrite app_length in Hk.
    split.
    + intros [[[Hx|Hx] _]|(x & lb' & [= <-] & Heq & _ & Hkl)]; try discriminate Hx.
      apply app_inv_tail in Heq as <-. cbn [app] in Hkl.
      assert (Hu : uvarint (take k (lb ++ bs)) = (zlen bs, zlen lb)).
      { rewrite take_app_ge by lia. apply (uvarint_spec _ lb _ Hv). }
      assert (Hs : slice_range (l1 ++ take k (lb ++ bs)) (zlen l1 + zlen lb) (zlen l1 + zlen lb + zlen bs) = PastLen).
      { unfold slice_range. rewrite Hll.
        replace ((0 <=? zlen l1 + zlen lb) && (zlen l1 + zlen lb <=? zlen l1 + zlen lb + zlen bs)) with true by lia. replace (_ <=? _) with false by lia. reflexivity. }
      destruct T; try discriminate Hwt; unfold GetString, GetBytes;
        rewrite (with_offset_some _ _ _ _ _ Hwf Hr Ho), Hsf; cbn [rbind]; rewrite Hu;
        rewrite (u64_small (zlen lb)) by (pows; lia); rewrite (u64_small (zlen l1 + zlen lb)) by (pows; lia);
        rewrite u64_small by (pows; lia); rewrite Hs; reflexivity.
    + intros Hn. assert (Hkl : (k < length lb)%nat).
      { destruct (le_lt_dec (length lb) k) as [Hle|Hgt]; [|exact Hgt]. exfalso. apply Hn. right. exists bs, lb. split_and!; auto. }
      assert (Hu : uvarint (take k (lb ++ bs)) = (0, 0)).
      { rewrite take_app_le by lia. apply (varint_prefix _ lb k Hv Hkl). }
      assert (Hs : slice_range (l1 ++ take k (lb ++ bs)) (zlen l1) (zlen l1) = Ok []).
      { unfold slice_range. rewrite Hll. replace ((0 <=? zlen l1) && (zlen l1 <=? zlen l1)) with true by lia.
        replace (zlen l1 <=? zlen l1 + Z.of_nat k) with true by lia. rewrite Z.sub_diag. reflexivity. }
      destruct T; try discriminate Hwt; cbn [value_of]; unfold GetString, GetBytes;
        rewrite (with_offset_some _ _ _ _ _ Hwf Hr Ho), Hsf; cbn [rbind]; rewrite Hu;
        change (u64 0) with 0; rewrite !Z.add_0_r; rewrite !(u64_small (zlen l1)) by (pows; lia); rewrite Hs; reflexivity.
  - cbn [payload_enc wire_type] in *. apply is_fixed_len in Hp.
    split; [intros _|intros Hn; exfalso; apply Hn; left; split; [right; reflexivity|cbn; lia]].
    assert (Hs : slice_range (l1 ++ take k pb) (zlen l1) (u64 (zlen l1 + 4)) = PastLen).
    { rewrite u64_small by (pows; lia). unfold slice_range. rewrite Hll.
      replace ((0 <=? zlen l1) && (zlen l1 <=? zlen l1 + 4)) with true by lia. replace (_ <=? _) with false by lia. reflexivity. }
    destruct T; try discriminate Hwt; unfold GetFixedUint32, GetFixedInt32, GetFloat32;
      rewrite (with_offset_some _ _ _ _ _ Hwf Hr Ho), Hs; reflexivity.
Qed.

Lemma size_known_drop w tb pb k : (length tb <= k)%nat -> size_known w tb pb k <-> size_known w [] pb (k - length tb).
Proof.
  intros Hk. unfold size_known. split; (intros [[H1 H2]|(x & lb & -> & -> & Hv & H2)]; [left|right]).
  1, 3: split; [done|cbn; lia].
  - exists x, lb. rewrite app_length in H2. split_and!; try done. cbn [app]. lia.
  - exists x, lb. cbn [app] in H2. split_and!; try done. rewrite app_length. lia.
Qed.

Lemma cut_field mt m0 rs b0 f w tb pb k T :
  of_type mt m0 -> wire rs b0 -> Forall (fun r => r.1 < Z.of_nat (alen mt)) rs ->
  tag_enc (f, w) tb -> payload_enc w pb -> f < Z.of_nat (alen mt) ->
  (length tb < k < length (tb ++ pb))%nat -> Z.of_nat (length (b0 ++ tb ++ pb)) < 2 ^ 63 ->
  ~ In f (reps mt) -> wire_type w = ptype_wire_type T ->
  exists m, m_Decode mt m0 (b0 ++ take k (tb ++ pb)) = Ok (Some ErrUnexpectedEOF, m) /\
    (size_known w tb pb k -> m_get T m f = PastLen) /\
    (~ size_known w tb pb k -> m_get T m f =
       Ok (value_of T match w with WBytes _ => WBytes [] | _ => WVarint 0 end)).
Proof.
  intros H0 Hw Hr Ht Hp Hf Hk Hl Hnr Hwt. apply wire_concrete in Hw as (cs & Hv & <- & <-). rewrite Forall_map in Hr.
  apply of_type_zlen in H0. set (c := mkCrec f w tb pb).
  assert (Hc : cvalid c) by (split; assumption).
  change (tb ++ pb) with (cbytes c) in Hl, Hk. fold (zlen (flat cs ++ cbytes c)) in Hl.
  pose proof Ht as [Hge _]. cbn in Hge.
  destruct (decode_cut_idx (fuel_of (flat cs ++ take k (cbytes c))) cs c k (reps mt) (moff m0)) as (o' & He & Hwf & Hl' & _ & Hi); try assumption.
  - intros c' Hc'. rewrite Forall_forall in Hv, Hr. specialize (Hr c' Hc'). cbn in Hr.
    destruct (Hv c' Hc') as [[Hge' _] _]. cbn in Hge'. unfold in_range. lia.
  - unfold in_range. change (cf c) with f. lia.
  - lia.
  - unfold fuel_of. rewrite app_length, take_length. pose proof (length_flat cs Hv). lia.
  - exists (mkMsg (flat cs ++ take k (cbytes c)) o'). unfold m_Decode. change (tb ++ pb) with (cbytes c). rewrite He. cbn [rbind].
    split; [reflexivity|].
    rewrite size_known_drop by lia. unfold cbytes. cbn [ct cp c]. rewrite take_app_ge by lia. rewrite app_assoc.
    apply m_get_cut; try assumption.
    + unfold in_range. lia.
    + apply Hi; [|cbn [ct c]; lia]. change (cf c) with f.
      destruct (is_repeated (reps mt) f) eqn:E; [|reflexivity]. apply is_repeated_In in E. contradiction.
    + rewrite <- app_assoc. exact Hl.
    + reflexivity.
    + unfold c, cbytes in Hk. cbn [ct cp] in Hk. rewrite app_length in Hk. lia.
Qed.
