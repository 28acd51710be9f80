(** * What a panicking Decode leaves behind *)
From Verif Require Import Runtime Spec VarintFacts OffsetsFacts RecFacts DecodeFacts DecodeClass SetFacts GetFacts IterFacts Fuel Api ApiFacts ApiInv Core Core2 Cut.
From Verif Require Import PanicState PanicFacts.
From Coq Require Import ZifyBool.

Definition p_upd (reps : list Z) (f x : Z) : M unit :=
  if is_repeated reps f then
    pbind (pread (fun s => offsets_get s.2 f)) (fun g =>
    if g.2 then pret tt else p_offsets_set f x)
  else p_offsets_set f x.

Lemma p_upd_eq reps f x b o :
  p_upd reps f x (b, o) =
    match dec_upd reps o f x with Ok o' => (Ok tt, (b, o')) | Panic => (Panic, (b, o))
    | PastLen => (PastLen, (b, o)) | OutOfFuel => (OutOfFuel, (b, o)) end.
Proof.
  unfold p_upd, dec_upd. destruct (is_repeated reps f).
  - unfold pbind at 1, pread. cbn [fst snd].
    destruct (offsets_get o f) as [[? ok]| | |]; cbn [rbind fst snd]; try done.
    destruct ok; [done|]. apply p_offsets_set_eq.
  - apply p_offsets_set_eq.
Qed.

Lemma p_decode_step fuel b1 c rest reps b o o' :
  cvalid c -> zlen (b1 ++ cbytes c ++ rest) < 2 ^ 63 ->
  dec_upd reps o (cf c) (zlen b1 + zlen (ct c)) = Ok o' ->
  p_decode_loop (S fuel) (b1 ++ cbytes c ++ rest) reps (zlen b1) (b, o) =
    p_decode_loop fuel (b1 ++ cbytes c ++ rest) reps (zlen b1 + zlen (cbytes c)) (b, o').
Proof.
  intros [Ht Hp] Hlen Hu. cbn [p_decode_loop].
  pose proof (tag_len _ _ Ht) as Htl. pose proof (payload_len_pos _ _ Hp) as Hpl.
  assert (Hc : zlen (cbytes c) = zlen (ct c) + zlen (cp c)) by (unfold cbytes; apply zlen_app).
  assert (Hb : zlen (b1 ++ cbytes c ++ rest) = zlen b1 + zlen (cbytes c) + zlen rest)
    by (rewrite !zlen_app; lia).
  pose proof (zlen_nonneg b1). pose proof (zlen_nonneg rest).
  replace (zlen b1 =? zlen (b1 ++ cbytes c ++ rest)) with false by lia.
  replace (zlen (b1 ++ cbytes c ++ rest) <? zlen b1) with false by lia.
  unfold pbind at 1, pread at 1. rewrite slice_from_app.
  assert (Hu0 : uvarint (cbytes c ++ rest) = (8 * (crecord c).1 + wire_type (crecord c).2, zlen (ct c))).
  { unfold cbytes. rewrite <- app_assoc. apply uvarint_spec, Ht. }
  rewrite Hu0. cbv beta iota.
  replace (zlen (ct c) =? 0) with false by lia.
  rewrite (i64_small (zlen b1 + zlen (ct c))) by lia.
  replace (zlen (b1 ++ cbytes c ++ rest) <=? zlen b1 + zlen (ct c)) with false by lia.
  destruct (tag_field _ _ Ht) as (_ & -> & ->). cbn [crecord fst snd].
  rewrite u64_small by (pows; lia).
  fold (p_upd reps (cf c) (zlen b1 + zlen (ct c))).
  unfold pbind at 1. rewrite p_upd_eq, Hu.
  unfold pbind at 1, pread at 1.
  assert (Hs0 : slice_from (b1 ++ cbytes c ++ rest) (zlen b1 + zlen (ct c)) = Ok (cp c ++ rest)).
  { unfold cbytes. rewrite <- (app_assoc (ct c)), (app_assoc b1). apply slice_from_app'. rewrite zlen_app. reflexivity. }
  rewrite Hs0.
  unfold pbind at 1, pread at 1.
  rewrite (fieldDataSize_ok (cw c) (cp c) rest Hp) by lia.
  replace (zlen (cp c) =? 0) with false by lia.
  rewrite i64_small by lia. rewrite Hc. rewrite Z.add_assoc. done.
Qed.

Lemma p_decode_records fuel pre cs rest reps b o :
  Forall cvalid pre -> Forall cvalid cs ->
  zlen (flat pre ++ flat cs ++ rest) < 2 ^ 63 ->
  owf o -> indexes reps o pre -> (forall c, c ∈ cs -> in_range o (cf c)) ->
  exists o', p_decode_loop (length cs + fuel) (flat pre ++ flat cs ++ rest) reps (zlen (flat pre)) (b, o) =
      p_decode_loop fuel (flat pre ++ flat cs ++ rest) reps (zlen (flat pre) + zlen (flat cs)) (b, o') /\
    owf o' /\ zlen (oa o') = zlen (oa o) /\ indexes reps o' (pre ++ cs).
Proof.
  intros Hpre Hcs. revert pre o Hpre. induction cs as [|c cs IH]; intros pre o Hpre Hlen Hwf Hi Hr.
  - exists o. cbn [flat]. rewrite zlen_nil, Z.add_0_r, app_nil_r. cbn [length Nat.add]. split_and!; auto.
  - apply Forall_cons in Hcs as [Hc Hcs]. cbn [flat length Nat.add].
    rewrite <- (app_assoc (cbytes c)).
    cbn [flat] in Hlen. rewrite <- (app_assoc (cbytes c)) in Hlen.
    assert (Hrc : in_range o (cf c)) by (apply Hr; left).
    pose proof Hc as [Ht Hp]. pose proof (tag_len _ _ Ht). pose proof (payload_len_pos _ _ Hp).
    pose proof (zlen_nonneg (flat pre)).
    assert (Hlc : zlen (cbytes c) = zlen (ct c) + zlen (cp c)) by (unfold cbytes; apply zlen_app).
    pose proof Hlen as Hlen'. rewrite !zlen_app in Hlen. pose proof (zlen_nonneg (flat cs)). pose proof (zlen_nonneg rest).
    destruct (dec_upd_ok reps o (cf c) (zlen (flat pre) + zlen (ct c)) Hwf Hrc)
      as (o1 & Hu & Hwf1 & Hl1 & Hne1 & Hf1 & _); [pows; lia|].
    rewrite (p_decode_step _ _ _ _ _ _ _ o1) by assumption.
    destruct (IH Hcs (pre ++ [c]) o1) as (o2 & Heq & Hwf2 & Hl2 & Hi2).
    + apply Forall_app. split; [assumption|]. apply Forall_singleton, Hc.
    + rewrite flat_app. cbn [flat]. rewrite !zlen_app, zlen_nil. lia.
    + exact Hwf1.
    + eapply indexes_upd; eassumption.
    + intros c' Hc'. unfold in_range. rewrite Hl1. apply Hr. right. exact Hc'.
    + exists o2. rewrite flat_app in Heq. cbn [flat] in Heq. rewrite app_nil_r, <- app_assoc in Heq.
      rewrite zlen_app in Heq. rewrite Heq. split_and!.
      * f_equal. rewrite (zlen_app (cbytes c)). lia.
      * exact Hwf2.
      * congruence.
      * rewrite <- app_assoc in Hi2. exact Hi2.
Qed.

(** The iteration that panics: it has at most stored the offset of the field
    it panics on. *)
Lemma p_decode_bad fuel b1 tag tb r reps b o :
  is_varint tag tb -> r <> [] -> zlen (b1 ++ tb ++ r) < 2 ^ 63 -> owf o ->
  zlen (oa o) <= tag / 8 \/ ~ (tag mod 8 = 0 \/ tag mod 8 = 1 \/ tag mod 8 = 2 \/ tag mod 8 = 5) ->
  exists o', p_decode_loop (S fuel) (b1 ++ tb ++ r) reps (zlen b1) (b, o) = (Panic, (b, o')) /\
    owf o' /\ zlen (oa o') = zlen (oa o) /\ forall g, g <> tag / 8 -> ofun o' g = ofun o g.
Proof.
  intros Hv Hr Hl Hwf Hbad. cbn [p_decode_loop]. rewrite !zlen_app in *.
  pose proof (is_varint_len _ _ Hv). pose proof (is_varint_nonneg _ _ Hv). pose proof (zlen_nonneg b1).
  assert (0 < zlen r) by (destruct r; [congruence|rewrite zlen_cons; pose proof (zlen_nonneg r); lia]).
  replace (_ =? _) with false by lia. replace (_ <? _) with false by lia.
  unfold pbind at 1, pread at 1. rewrite slice_from_app. rewrite (uvarint_spec _ _ r Hv).
  replace (zlen tb =? 0) with false by lia. cbn zeta. rewrite (i64_small (zlen b1 + zlen tb)) by (revert Hl; pows; lia).
  replace (_ <=? _) with false by lia.
  assert (Htag8 : i64 (Z.shiftr tag 3) = tag / 8).
  { rewrite shiftr_3. apply i64_small. pows. Z.div_mod_to_equations. lia. }
  rewrite Htag8, land_7. rewrite u64_small by (pows; lia).
  fold (p_upd reps (tag / 8) (zlen b1 + zlen tb)).
  unfold pbind at 1. rewrite p_upd_eq.
  destruct (decide (in_range o (tag / 8))) as [Hin|Hout].
  - destruct Hbad as [Hbad|Hwt]; [unfold in_range in Hin; lia|].
    destruct (dec_upd_ok reps o (tag / 8) (zlen b1 + zlen tb) Hwf Hin) as (o1 & -> & Hwf1 & Hl1 & Hne1 & _); [pows; lia|].
    exists o1. split_and!; try assumption.
    unfold pbind at 1, pread at 1. rewrite app_assoc. rewrite slice_from_app' by (rewrite zlen_app; reflexivity).
    unfold pbind at 1, pread at 1.
    unfold fieldDataSize, WireVarint, WireFixed32, WireFixed64, WireBytes.
    replace (tag mod 8 =? 0) with false by lia. replace (tag mod 8 =? 5) with false by lia.
    replace (tag mod 8 =? 1) with false by lia. replace (tag mod 8 =? 2) with false by lia. reflexivity.
  - exists o. split_and!; try done. unfold dec_upd.
    rewrite offsets_get_out, offsets_set_out by exact Hout. destruct (is_repeated _ _); reflexivity.
Qed.

(** A Decode that panics at a record it does not support, after the records
    [rs]. *)
Lemma decode_panic_state mt m0 rs b0 tag tb r :
  of_type mt m0 -> wire rs b0 -> Forall (fun x => x.1 < Z.of_nat (alen mt)) rs ->
  is_varint tag tb -> r <> [] -> Z.of_nat (length (b0 ++ tb ++ r)) < 2 ^ 63 ->
  Z.of_nat (alen mt) <= tag / 8 \/ ~ (tag mod 8 = 0 \/ tag mod 8 = 1 \/ tag mod 8 = 2 \/ tag mod 8 = 5) ->
  exists m, call_st mt m0 (CDecode (b0 ++ tb ++ r)) = (Panic, m) /\
    m_Encode m = b0 ++ tb ++ r /\
    forall g T, 0 <= g < Z.of_nat (alen mt) -> ~ In g (reps mt) -> g <> tag / 8 ->
      (forall w, last (occ g rs) = Some w -> conforms T w) ->
      m_get T m g = Ok (read_single T (occ g rs)).
Proof.
  intros H0 Hw Hr Hv Hne Hl Hbad. apply wire_concrete in Hw as (cs & Hcs & <- & <-). rewrite Forall_map in Hr.
  apply of_type_zlen in H0. fold (zlen (flat cs ++ tb ++ r)) in Hl.
  destruct (offsets_clear_ok (moff m0)) as (Hwf & Hlc & Hf & _). rewrite H0 in Hlc.
  set (buf := flat cs ++ tb ++ r) in *.
  assert (Hfl : (length cs <= length (flat cs))%nat) by (apply length_flat; assumption).
  assert (Hfu : exists k, fuel_of buf = (length cs + S k)%nat).
  { exists (fuel_of buf - length cs - 1)%nat. unfold fuel_of, buf. rewrite app_length. lia. }
  destruct Hfu as [k Hk].
  destruct (p_decode_records (S k) [] cs (tb ++ r) (reps mt) buf (offsets_clear (moff m0)))
    as (o' & Hd & Hwf' & Hl' & Hi); try assumption; [constructor|..].
  { apply indexes_nil, Hf. }
  { intros c Hc. unfold in_range. rewrite Hlc. rewrite Forall_forall in Hcs, Hr.
    specialize (Hr c Hc). destruct (Hcs c Hc) as [[Hge _] _]. cbn in Hr, Hge. lia. }
  cbn [flat app] in Hd, Hi. change (zlen (@nil Z)) with 0 in Hd. rewrite Z.add_0_l in Hd.
  destruct (p_decode_bad k (flat cs) tag tb r (reps mt) buf o' Hv Hne Hl Hwf') as (o2 & Hb & Hwf2 & Hl2 & Ho2).
  { rewrite Hl', Hlc. exact Hbad. }
  exists (mkMsg buf o2). split; [|split; [reflexivity|]].
  - unfold call_st, p_Decode. rewrite Hk. unfold pbind at 1 2, wbuf. cbn [fst snd]. unfold pbind at 1. cbn [fst snd].
    fold buf in Hd, Hb. rewrite Hd, Hb. done.
  - intros g T Hg Hnr Hng Hcf. unfold buf.
    apply (m_get_pick (reps mt)); try assumption.
    + rewrite Ho2 by exact Hng. apply Hi. unfold in_range. lia.
    + unfold in_range. lia.
    + destruct (is_repeated (reps mt) g) eqn:E; [|reflexivity]. apply is_repeated_In in E. contradiction.
Qed.
