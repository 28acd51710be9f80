(** * Decode on well-formed and truncated messages *)
From Verif Require Import Runtime Spec VarintFacts OffsetsFacts RecFacts.
From Coq Require Import ZifyBool.

Lemma head_app_Some {A} (l1 l2 : list A) : l1 <> [] -> head (l1 ++ l2) = head l1.
Proof. destruct l1; [congruence|reflexivity]. Qed.

(** What one iteration does to the offsets (zeropb.go:444-459). *)
Definition dec_upd (reps : list Z) (o : offsets) (f x : Z) : res offsets :=
  if is_repeated reps f then
    let* (_, ok) := offsets_get o f in
    if ok then Ok o else offsets_set o f x
  else offsets_set o f x.

Lemma dec_upd_ok reps o f x :
  owf o -> in_range o f -> 0 < x < 2 ^ 64 ->
  exists o', dec_upd reps o f x = Ok o' /\ owf o' /\ zlen (oa o') = zlen (oa o) /\
    (forall g, g <> f -> ofun o' g = ofun o g) /\
    ofun o' f = (if is_repeated reps f then
                   match ofun o f with Some y => Some y | None => Some x end
                 else Some x) /\
    (x <= 65534 -> om o = None -> om o' = None).
Proof.
  intros Hwf Hf Hx. unfold dec_upd.
  destruct (offsets_set_ok o f x Hwf Hf ltac:(lia)) as (o' & Hs & Hwf' & Hl & Ho & Hne & Hn).
  replace (x =? 0) with false in Ho by lia.
  destruct (is_repeated reps f).
  - pose proof (offsets_get_eq o f Hwf Hf) as Hg. destruct (ofun o f) as [y|] eqn:Ey; rewrite Hg; cbn [rbind].
    + exists o. split_and!; auto.
    + exists o'. split_and!; auto.
  - exists o'. split_and!; auto.
Qed.

Lemma indexes_upd reps o o' cs c :
  Forall cvalid cs ->
  indexes reps o cs -> in_range o (cf c) ->
  zlen (oa o') = zlen (oa o) ->
  (forall g, g <> cf c -> ofun o' g = ofun o g) ->
  ofun o' (cf c) = (if is_repeated reps (cf c) then
                      match ofun o (cf c) with Some y => Some y | None => Some (zlen (flat cs) + zlen (ct c)) end
                    else Some (zlen (flat cs) + zlen (ct c))) ->
  indexes reps o' (cs ++ [c]).
Proof.
  intros Hv Hi Hr Hl Hne Hf g Hg. rewrite poss_app. cbn [poss]. rewrite Z.add_0_l.
  assert (Hg' : in_range o g) by (unfold in_range in *; lia).
  destruct (Z.eqb_spec (cf c) g) as [<-|Hn].
  - rewrite Hf, (Hi _ Hr). unfold pick.
    destruct (is_repeated reps (cf c)).
    + destruct (poss (cf c) 0 cs) as [|y l]; reflexivity.
    + rewrite last_snoc. reflexivity.
  - rewrite app_nil_r, Hne by congruence. apply Hi, Hg'.
Qed.

(** One iteration of the loop over a complete record. *)
Lemma decode_step fuel b1 c rest reps o :
  cvalid c -> zlen (b1 ++ cbytes c ++ rest) < 2 ^ 63 ->
  decode_loop (S fuel) (b1 ++ cbytes c ++ rest) reps (zlen b1) o =
    let* o' := dec_upd reps o (cf c) (zlen b1 + zlen (ct c)) in
    decode_loop fuel (b1 ++ cbytes c ++ rest) reps (zlen b1 + zlen (cbytes c)) o'.
Proof.
  intros [Ht Hp] Hlen. cbn [decode_loop].
  pose proof (tag_len _ _ Ht) as Htl. pose proof (payload_len_pos _ _ Hp) as Hpl.
  assert (Hc : zlen (cbytes c) = zlen (ct c) + zlen (cp c)) by (unfold cbytes; apply zlen_app).
  assert (Hb : zlen (b1 ++ cbytes c ++ rest) = zlen b1 + zlen (cbytes c) + zlen rest)
    by (rewrite !zlen_app; lia).
  pose proof (zlen_nonneg b1). pose proof (zlen_nonneg rest).
  replace (zlen b1 =? zlen (b1 ++ cbytes c ++ rest)) with false by lia.
  replace (zlen (b1 ++ cbytes c ++ rest) <? zlen b1) with false by lia.
  rewrite slice_from_app. cbn [rbind].
  replace (cbytes c ++ rest) with (ct c ++ cp c ++ rest) at 1 by (unfold cbytes; rewrite app_assoc; reflexivity).
  rewrite (uvarint_spec _ _ (cp c ++ rest) (proj2 Ht)).
  replace (zlen (ct c) =? 0) with false by lia.
  rewrite (i64_small (zlen b1 + zlen (ct c))) by lia.
  replace (zlen (b1 ++ cbytes c ++ rest) <=? zlen b1 + zlen (ct c)) with false by lia.
  destruct (tag_field _ _ Ht) as (_ & -> & ->). cbn [crecord fst snd].
  rewrite u64_small by (pows; lia).
  unfold dec_upd. fold (dec_upd reps o (cf c) (zlen b1 + zlen (ct c))).
  destruct (dec_upd reps o (cf c) (zlen b1 + zlen (ct c))) as [o'| | |]; cbn [rbind]; try reflexivity.
  replace (b1 ++ cbytes c ++ rest) with ((b1 ++ ct c) ++ cp c ++ rest) at 1
    by (unfold cbytes; rewrite <- !app_assoc; reflexivity).
  rewrite slice_from_app' by (rewrite zlen_app; reflexivity). cbn [rbind].
  rewrite (fieldDataSize_ok (cw c) (cp c) rest Hp) by lia. cbn [rbind].
  replace (zlen (cp c) =? 0) with false by lia.
  rewrite i64_small by lia. rewrite Hc. f_equal. lia.
Qed.

(** The loop over a list of complete records. *)
Lemma decode_records fuel pre cs rest reps o :
  Forall cvalid pre -> Forall cvalid cs ->
  zlen (flat pre ++ flat cs ++ rest) < 2 ^ 63 ->
  owf o -> indexes reps o pre -> (forall c, c ∈ cs -> in_range o (cf c)) ->
  exists o', decode_loop (length cs + fuel) (flat pre ++ flat cs ++ rest) reps (zlen (flat pre)) o =
      decode_loop fuel (flat pre ++ flat cs ++ rest) reps (zlen (flat pre) + zlen (flat cs)) o' /\
    owf o' /\ zlen (oa o') = zlen (oa o) /\ indexes reps o' (pre ++ cs) /\
    (zlen (flat pre ++ flat cs) <= 65535 -> om o = None -> om o' = None).
Proof.
  intros Hpre Hcs. revert pre o Hpre. induction cs as [|c cs IH]; intros pre o Hpre Hlen Hwf Hi Hr.
  - exists o. cbn [flat]. rewrite zlen_nil, Z.add_0_r, app_nil_r. cbn [length Nat.add]. split_and!; auto.
  - apply Forall_cons in Hcs as [Hc Hcs]. cbn [flat length Nat.add].
    rewrite <- (app_assoc (cbytes c)).
    cbn [flat] in Hlen. rewrite <- (app_assoc (cbytes c)) in Hlen.
    rewrite decode_step by assumption.
    assert (Hrc : in_range o (cf c)) by (apply Hr; left).
    pose proof Hc as [Ht Hp]. pose proof (tag_len _ _ Ht). pose proof (payload_len_pos _ _ Hp).
    pose proof (zlen_nonneg (flat pre)).
    assert (Hlc : zlen (cbytes c) = zlen (ct c) + zlen (cp c)) by (unfold cbytes; apply zlen_app).
    rewrite !zlen_app in Hlen. pose proof (zlen_nonneg (flat cs)). pose proof (zlen_nonneg rest).
    destruct (dec_upd_ok reps o (cf c) (zlen (flat pre) + zlen (ct c)) Hwf Hrc)
      as (o1 & -> & Hwf1 & Hl1 & Hne1 & Hf1 & Hn1); [pows; lia|]. cbn [rbind].
    destruct (IH Hcs (pre ++ [c]) o1) as (o2 & Heq & Hwf2 & Hl2 & Hi2 & Hn2).
    + apply Forall_app. split; [assumption|]. apply Forall_singleton, Hc.
    + rewrite flat_app. cbn [flat]. rewrite !zlen_app, zlen_nil. lia.
    + exact Hwf1.
    + eapply indexes_upd; eassumption.
    + intros c' Hc'. unfold in_range. rewrite Hl1. apply Hr. right. exact Hc'.
    + exists o2. rewrite flat_app in Heq. cbn [flat] in Heq. rewrite app_nil_r, <- app_assoc in Heq.
      rewrite zlen_app in Heq. rewrite Heq. split_and!.
      * f_equal. rewrite (zlen_app (cbytes c)). lia.
      * exact Hwf2.
      * congruence.
      * rewrite <- app_assoc in Hi2. exact Hi2.
      * rewrite flat_app in Hn2. cbn [flat] in Hn2. rewrite app_nil_r, <- app_assoc in Hn2.
        intros Hle Hom. apply Hn2; [exact Hle|]. apply Hn1; [|exact Hom].
        rewrite !zlen_app in Hle. lia.
Qed.

Lemma indexes_nil reps o : (forall f, ofun o f = None) -> indexes reps o [].
Proof. intros H f _. cbn [poss]. rewrite pick_nil. apply H. Qed.

(** Decode of a well-formed message. *)
Lemma decode_ok fuel cs reps o :
  Forall cvalid cs -> zlen (flat cs) < 2 ^ 63 ->
  (forall c, c ∈ cs -> in_range o (cf c)) -> (length cs < fuel)%nat ->
  exists o', Decode fuel (flat cs) o reps = Ok (None, o') /\
    owf o' /\ zlen (oa o') = zlen (oa o) /\ indexes reps o' cs /\
    (zlen (flat cs) <= 65535 -> om o = None -> om o' = None).
Proof.
  intros Hcs Hlen Hr Hfuel. unfold Decode.
  destruct (offsets_clear_ok o) as (Hwf0 & Hl0 & Hf0 & Hn0).
  replace fuel with (length cs + S (fuel - length cs - 1))%nat by lia.
  destruct (decode_records (S (fuel - length cs - 1)) [] cs [] reps (offsets_clear o))
    as (o' & Heq & Hwf' & Hl' & Hi' & Hn').
  - constructor.
  - assumption.
  - cbn [flat app]. rewrite app_nil_r. exact Hlen.
  - exact Hwf0.
  - apply indexes_nil, Hf0.
  - intros c Hc. unfold in_range. rewrite Hl0. apply Hr, Hc.
  - cbn [flat app] in *. rewrite zlen_nil, Z.add_0_l in Heq. rewrite !app_nil_r in Heq. rewrite Heq.
    cbn [decode_loop]. rewrite Z.eqb_refl.
    exists o'. split_and!; auto. congruence.
Qed.

(** ** Truncation *)

Lemma uvarint_all_cont bs : Forall (fun b => 128 <= b < 256) bs -> uvarint bs = (0, 0).
Proof.
  intros H. unfold uvarint. generalize 0 at 1 2 3. intros z.
  assert (Hg : forall i x s, uvarint_loop bs i x s = (0, 0)).
  { induction H as [|b bs Hb Hbs IH]; intros i x s; cbn [uvarint_loop]; [reflexivity|].
    replace (b <? 128) with false by lia. apply IH. }
  apply Hg.
Qed.

Lemma varint_prefix v vb k :
  is_varint v vb -> (k < length vb)%nat -> uvarint (take k vb) = (0, 0).
Proof.
  intros (init & lst & -> & Hin & _) Hk. rewrite app_length in Hk. cbn [length] in Hk.
  apply uvarint_all_cont. rewrite take_app_le by lia. apply Forall_take, Hin.
Qed.

(** The size reported for a cut payload is 0 or larger than what is left. *)
Lemma fieldDataSize_cut w pb k :
  payload_enc w pb -> zlen pb < 2 ^ 63 -> (k < length pb)%nat ->
  fieldDataSize (wire_type w) (take k pb) = Ok 0 \/
  (fieldDataSize (wire_type w) (take k pb) = Ok (zlen pb)).
Proof.
  intros Hp Hlt Hk. unfold fieldDataSize, WireVarint, WireFixed32, WireFixed64, WireBytes.
  destruct w; cbn [wire_type payload_enc] in *.
  - left. rewrite (varint_prefix v pb k Hp Hk). reflexivity.
  - right. apply is_fixed_len in Hp. rewrite Hp. reflexivity.
  - destruct Hp as (lb & -> & Hv & _). rewrite zlen_app in *.
    change (2 =? 0) with false. change (2 =? 5) with false.
    change (2 =? 1) with false. change (2 =? 2) with true. cbn iota.
    destruct (decide (k < length lb)%nat) as [Hlt'|Hge].
    + left. rewrite take_app_le by lia. rewrite (varint_prefix _ lb k Hv Hlt'). reflexivity.
    + right. rewrite take_app_ge by lia.
      rewrite (uvarint_spec _ lb _ Hv).
      pose proof (is_varint_len _ _ Hv). replace (zlen lb =? 0) with false by lia.
      fold (zlen bs). pose proof (zlen_nonneg bs).
      rewrite !i64_small by (rewrite ?i64_small; lia). reflexivity.
  - right. apply is_fixed_len in Hp. rewrite Hp. reflexivity.
Qed.

(** Decode of complete records followed by a cut record. *)
Lemma decode_cut fuel cs c k reps o :
  Forall cvalid cs -> cvalid c -> zlen (flat cs ++ cbytes c) < 2 ^ 63 ->
  (forall c', c' ∈ cs -> in_range o (cf c')) -> in_range o (cf c) ->
  (0 < k < length (cbytes c))%nat -> (length cs + 1 < fuel)%nat ->
  exists o', Decode fuel (flat cs ++ take k (cbytes c)) o reps = Ok (Some ErrUnexpectedEOF, o') /\
    zlen (oa o') = zlen (oa o).
Proof.
  intros Hcs Hc Hlen Hr Hrc Hk Hfuel. unfold Decode.
  destruct (offsets_clear_ok o) as (Hwf0 & Hl0 & Hf0 & Hn0).
  replace fuel with (length cs + S (S (fuel - length cs - 2)))%nat by lia.
  rewrite zlen_app in Hlen. pose proof (zlen_nonneg (flat cs)).
  assert (Htk : zlen (take k (cbytes c)) = Z.of_nat k) by (unfold zlen; rewrite take_length; lia).
  assert (Hck : Z.of_nat k < zlen (cbytes c)) by (unfold zlen; lia).
  destruct (decode_records (S (S (fuel - length cs - 2))) [] cs (take k (cbytes c)) reps (offsets_clear o))
    as (o1 & Heq & Hwf1 & Hl1 & Hi1 & Hn1).
  - constructor.
  - assumption.
  - cbn [flat app]. rewrite zlen_app. lia.
  - exact Hwf0.
  - apply indexes_nil, Hf0.
  - intros c' Hc'. unfold in_range. rewrite Hl0. apply Hr, Hc'.
  - cbn [flat app] in *. rewrite zlen_nil, Z.add_0_l in Heq. rewrite Heq. clear Heq.
    generalize (fuel - length cs - 2)%nat as fuel'. intros fuel'.
    assert (Hl : zlen (flat cs ++ take k (cbytes c)) = zlen (flat cs) + Z.of_nat k)
      by (rewrite zlen_app, Htk; reflexivity).
    remember (S fuel') as fuel1 eqn:Hf1. cbn [decode_loop].
    replace (zlen (flat cs) =? zlen (flat cs ++ take k (cbytes c))) with false by lia.
    replace (zlen (flat cs ++ take k (cbytes c)) <? zlen (flat cs)) with false by lia.
    rewrite slice_from_app. cbn [rbind].
    destruct Hc as [Ht Hp]. pose proof (tag_len _ _ Ht) as Htl. pose proof (payload_len_pos _ _ Hp) as Hpl.
    assert (Hlc : zlen (cbytes c) = zlen (ct c) + zlen (cp c)) by (unfold cbytes; apply zlen_app).
    destruct (decide (k < length (ct c))%nat) as [Hlt|Hge].
    { unfold cbytes. rewrite take_app_le by lia.
      rewrite (varint_prefix _ _ _ (proj2 Ht) Hlt).
      exists o1. split; [reflexivity|congruence]. }
    unfold cbytes. rewrite take_app_ge by lia. fold (cbytes c).
    rewrite (uvarint_spec _ _ (take (k - length (ct c)) (cp c)) (proj2 Ht)).
    replace (zlen (ct c) =? 0) with false by lia.
    rewrite (i64_small (zlen (flat cs) + zlen (ct c))) by lia.
    assert (Hl' : zlen (flat cs ++ ct c ++ take (k - length (ct c)) (cp c)) = zlen (flat cs) + Z.of_nat k).
    { rewrite <- Hl. unfold cbytes. rewrite take_app_ge by lia. reflexivity. }
    rewrite Hl'.
    destruct (Z.leb_spec (zlen (flat cs) + Z.of_nat k) (zlen (flat cs) + zlen (ct c))) as [Hle|Hgt].
    { exists o1. split; [reflexivity|congruence]. }
    destruct (tag_field _ _ Ht) as (_ & -> & ->). cbn [crecord fst snd].
    rewrite u64_small by (pows; lia).
    fold (dec_upd reps o1 (cf c) (zlen (flat cs) + zlen (ct c))).
    destruct (dec_upd_ok reps o1 (cf c) (zlen (flat cs) + zlen (ct c)) Hwf1)
      as (o2 & -> & Hwf2 & Hl2 & _); [unfold in_range in *; lia|pows; lia|]. cbn [rbind].
    rewrite app_assoc. rewrite slice_from_app' by (rewrite zlen_app; reflexivity). cbn [rbind].
    destruct (fieldDataSize_cut (cw c) (cp c) (k - length (ct c)) Hp) as [-> | ->];
      [lia|unfold zlen in *; lia| |]; cbn [rbind].
    + exists o2. split; [reflexivity|congruence].
    + replace (zlen (cp c) =? 0) with false by lia.
      rewrite i64_small by lia. rewrite <- app_assoc.
      subst fuel1. cbn [decode_loop]. rewrite Hl'.
      replace (zlen (flat cs) + zlen (ct c) + zlen (cp c) =? zlen (flat cs) + Z.of_nat k) with false by lia.
      replace (zlen (flat cs) + Z.of_nat k <? zlen (flat cs) + zlen (ct c) + zlen (cp c)) with true by lia.
      exists o2. split; [reflexivity|congruence].
Qed.
