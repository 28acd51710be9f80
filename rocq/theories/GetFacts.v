(** * The getters on a laid-out message *)
From Verif Require Import Runtime Spec VarintFacts OffsetsFacts RecFacts GenApi.
From Coq Require Import ZifyBool.

Lemma i32_signed v : i32 v = to_signed 32 v.
Proof.
  unfold i32, to_signed. change (2 ^ 32) with 4294967296. change (2 ^ (32 - 1)) with 2147483648.
  pose proof (Z.mod_pos_bound v 4294967296 ltac:(lia)).
  destruct (Z.ltb_spec (v mod 4294967296) 2147483648) as [Hlt|Hge]; Z.div_mod_to_equations; lia.
Qed.

Lemma i64_signed v : i64 v = to_signed 64 v.
Proof.
  unfold i64, to_signed. change (2 ^ 64) with 18446744073709551616. change (2 ^ (64 - 1)) with 9223372036854775808.
  pose proof (Z.mod_pos_bound v 18446744073709551616 ltac:(lia)).
  destruct (Z.ltb_spec (v mod 18446744073709551616) 9223372036854775808) as [Hlt|Hge]; Z.div_mod_to_equations; lia.
Qed.

Lemma even_land v : 0 <= v -> negb (Z.land v 1 =? 0) = negb (Z.even v).
Proof. intros Hv. rewrite land_1, Zmod_even. destruct (Z.even v); reflexivity. Qed.

Lemma varint_unzigzag v vb r :
  is_varint v vb -> varint (vb ++ r) = (unzigzag v, zlen vb).
Proof.
  intros Hv. unfold varint. rewrite (uvarint_spec _ _ r Hv). pose proof (is_varint_nonneg _ _ Hv) as Hn.
  rewrite even_land by lia. rewrite shiftr_1. unfold unzigzag.
  rewrite i64_small by (revert Hn; pows; intros; Z.div_mod_to_equations; lia).
  destruct (Z.even v); cbn [negb]; [reflexivity|]. reflexivity.
Qed.

Lemma unzigzag32 v : 0 <= v < 2 ^ 32 -> i32 (unzigzag v) = unzigzag (to_unsigned 32 v).
Proof.
  intros Hv. unfold to_unsigned. rewrite Z.mod_small by exact Hv.
  change (2 ^ 32) with 4294967296 in Hv. unfold i32, unzigzag.
  destruct (Z.even v); rewrite Z.mod_small; Z.div_mod_to_equations; lia.
Qed.

Lemma with_offset_some {A} o f x (d : A) k :
  owf o -> in_range o f -> ofun o f = Some x -> with_offset o f d k = k x.
Proof.
  intros Hwf Hr Hx. unfold with_offset. pose proof (offsets_get_eq o f Hwf Hr) as Hg. rewrite Hx in Hg.
  rewrite Hg. reflexivity.
Qed.

Lemma with_offset_none {A} o f (d : A) k :
  owf o -> in_range o f -> ofun o f = None -> with_offset o f d k = Ok d.
Proof.
  intros Hwf Hr Hx. unfold with_offset. pose proof (offsets_get_eq o f Hwf Hr) as Hg. rewrite Hx in Hg.
  rewrite Hg. reflexivity.
Qed.

Lemma fixed4 v pb : is_fixed 4 v pb -> le_uint32 pb = Ok v.
Proof.
  intros (Hl & Hb & Hv). destruct pb as [|b0 [|b1 [|b2 [|b3 [|? ?]]]]]; try discriminate.
  repeat match goal with H : Forall _ (_ :: _) |- _ => apply Forall_cons in H as [? H] end.
  rewrite le32_spec by assumption. rewrite Hv. reflexivity.
Qed.

Lemma fixed8 v pb : is_fixed 8 v pb -> le_uint64 pb = Ok v.
Proof.
  intros (Hl & Hb & Hv). destruct pb as [|b0 [|b1 [|b2 [|b3 [|b4 [|b5 [|b6 [|b7 [|? ?]]]]]]]]]; try discriminate.
  repeat match goal with H : Forall _ (_ :: _) |- _ => apply Forall_cons in H as [? H] end.
  rewrite le64_spec by assumption. rewrite Hv. reflexivity.
Qed.

(** Getting a field that is set. *)
Lemma m_get_some T o f l1 w pb r :
  owf o -> in_range o f -> ofun o f = Some (zlen l1) ->
  payload_enc w pb -> conforms T w -> zlen (l1 ++ pb ++ r) < 2 ^ 63 ->
  m_get T (mkMsg (l1 ++ pb ++ r) o) f = Ok (value_of T w).
Proof.
  intros Hwf Hr Ho Hp [Hwt Hc] Hlen. unfold m_get. cbn [mbuf moff].
  rewrite !zlen_app in Hlen. pose proof (zlen_nonneg l1). pose proof (zlen_nonneg pb). pose proof (zlen_nonneg r).
  assert (Hsf : slice_from (l1 ++ pb ++ r) (zlen l1) = Ok (pb ++ r)) by apply slice_from_app.
  destruct w as [v|v|bs|v].
  - (* varint *)
    cbn [payload_enc wire_type] in *. pose proof (is_varint_nonneg _ _ Hp) as Hv.
    pose proof (uvarint_spec _ _ r Hp) as Hu. pose proof (varint_unzigzag _ _ r Hp) as Hz.
    destruct T; try discriminate; cbn [value_of];
      unfold GetBool, GetInt32, GetInt64, GetUint32, GetUint64, GetZigZagInt32, GetZigZagInt64;
      rewrite (with_offset_some _ _ _ _ _ Hwf Hr Ho), Hsf; cbn [rbind]; rewrite ?Hu, ?Hz; cbn [rbind]; do 2 f_equal.
    + lia.
    + apply i32_signed.
    + apply i64_signed.
    + apply unzigzag32. lia.
  - pose proof (is_fixed_len _ _ _ Hp) as Hl. cbn in Hl.
    assert (Hs : slice_range (l1 ++ pb ++ r) (zlen l1) (u64 (zlen l1 + 8)) = Ok pb).
    { rewrite u64_small by (pows; lia). apply slice_range_app; lia. }
    cbn [payload_enc wire_type] in *. apply fixed8 in Hp.
    destruct T; try discriminate; cbn [value_of]; unfold GetFixedUint64, GetFixedInt64, GetFloat64;
      rewrite (with_offset_some _ _ _ _ _ Hwf Hr Ho), Hs; cbn [rbind]; rewrite Hp; cbn [rbind]; do 2 f_equal.
    apply i64_signed.
  - cbn [payload_enc wire_type] in *. destruct Hp as (lb & -> & Hv & Hb). rewrite <- app_assoc in *.
    pose proof (uvarint_spec _ _ (bs ++ r) Hv) as Hu. fold (zlen bs) in Hu.
    rewrite zlen_app in Hlen. pose proof (zlen_nonneg lb). pose proof (zlen_nonneg bs).
    destruct T; try discriminate; cbn [value_of]; unfold GetString, GetBytes;
      rewrite (with_offset_some _ _ _ _ _ Hwf Hr Ho), slice_from_app; cbn [rbind]; rewrite Hu;
      rewrite (u64_small (zlen lb)) by (pows; lia);
      rewrite (u64_small (zlen l1 + zlen lb)) by (pows; lia);
      rewrite u64_small by (pows; lia); rewrite (app_assoc l1 lb);
      rewrite slice_range_app by (rewrite zlen_app; lia); reflexivity.
  - pose proof (is_fixed_len _ _ _ Hp) as Hl. cbn in Hl.
    assert (Hs : slice_range (l1 ++ pb ++ r) (zlen l1) (u64 (zlen l1 + 4)) = Ok pb).
    { rewrite u64_small by (pows; lia). apply slice_range_app; lia. }
    cbn [payload_enc wire_type] in *. apply fixed4 in Hp.
    destruct T; try discriminate; cbn [value_of]; unfold GetFixedUint32, GetFixedInt32, GetFloat32;
      rewrite (with_offset_some _ _ _ _ _ Hwf Hr Ho), Hs; cbn [rbind]; rewrite Hp; cbn [rbind]; do 2 f_equal.
    apply i32_signed.
Qed.

Lemma m_get_none T m f :
  owf (moff m) -> in_range (moff m) f -> ofun (moff m) f = None -> m_get T m f = Ok (default_of T).
Proof.
  intros Hwf Hr Ho. unfold m_get. destruct T; cbn [default_of];
    unfold GetBool, GetInt32, GetInt64, GetUint32, GetUint64, GetZigZagInt32, GetZigZagInt64,
      GetFixedUint32, GetFixedUint64, GetFixedInt32, GetFixedInt64, GetFloat32, GetFloat64, GetString, GetBytes;
    rewrite (with_offset_none _ _ _ _ Hwf Hr Ho); reflexivity.
Qed.

(** The getter of a non-repeated field reads the last occurrence. *)
Lemma m_get_indexes reps T o cs f :
  Forall cvalid cs -> owf o -> indexes reps o cs -> in_range o f -> is_repeated reps f = false ->
  zlen (flat cs) < 2 ^ 63 ->
  (forall w, last (occ f (map crecord cs)) = Some w -> conforms T w) ->
  m_get T (mkMsg (flat cs) o) f = Ok (read_single T (occ f (map crecord cs))).
Proof.
  intros Hv Hwf Hi Hr Hnr Hlen Hc. unfold read_single.
  destruct (decide (occ f (map crecord cs) = [])) as [Hocc|Hocc].
  - rewrite Hocc. cbn. apply m_get_none; cbn [moff]; try assumption.
    rewrite (Hi f Hr), (proj2 (poss_nil_iff f 0 cs) Hocc). apply pick_nil.
  - destruct (split_last f cs Hocc) as (pre & c & post & -> & Hcf & Hpost).
    assert (Hlast : last (occ f (map crecord (pre ++ c :: post))) = Some (cw c)).
    { rewrite map_app, occ_app. cbn [map occ crecord]. rewrite Hcf, Z.eqb_refl, Hpost. apply last_snoc. }
    rewrite Hlast in *.
    apply Forall_app in Hv as [Hv1 Hv2]. apply Forall_cons in Hv2 as [[Ht Hp] Hv2].
    assert (Hflat : flat (pre ++ c :: post) = (flat pre ++ ct c) ++ cp c ++ flat post).
    { rewrite flat_app. cbn [flat]. unfold cbytes. rewrite <- !app_assoc. reflexivity. }
    rewrite Hflat in *. eapply m_get_some; eauto.
    rewrite (Hi f Hr). unfold pick. rewrite Hnr, poss_app. cbn [poss]. rewrite Hcf, Z.eqb_refl.
    rewrite (proj2 (poss_nil_iff f _ post) Hpost), last_snoc, zlen_app. reflexivity.
Qed.
