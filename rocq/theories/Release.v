(** * Legal use does not depend on what [binary.Uvarint] does with malformed varints *)
From Verif Require Import RuntimeGo Spec VarintFacts OffsetsFacts RecFacts DecodeFacts DecodeClass SetFacts GetFacts IterFacts Fuel Api ApiFacts ApiInv Core.
From Coq Require Import ZifyBool.

(** [uv] reads every well-formed varint (Spec.v: at most ten bytes, below 2^64) as
    encoding/binary documents it: the value and the number of bytes, whatever
    follows.  Nothing is said of other inputs. *)
Definition reads_varints (uv : list Z -> Z * Z) : Prop :=
  forall v vb r, is_varint v vb -> uv (vb ++ r) = (v, zlen vb).

Lemma uvarint_reads : reads_varints uvarint.
Proof. intros v vb r. apply uvarint_spec. Qed.

Lemma uvarint_117_reads : reads_varints uvarint_117.
Proof.
  intros v vb r Hv. rewrite <- (uvarint_spec v vb r Hv). unfold uvarint_117, uvarint.
  destruct Hv as (init & lst & -> & Hin & Hl & Hlen & Hb & Hlt). rewrite <- app_assoc. cbn [app].
  assert (H9 : zlen init = 9 -> lst <= 1).
  { intros E. rewrite <- Hb, base128_app, E in Hlt. cbn [base128] in Hlt. rewrite Z.mod_small in Hlt by lia.
    pose proof (base128_nonneg init). change (2 ^ (7 * 9)) with 9223372036854775808 in *.
    change (2 ^ 64) with 18446744073709551616 in *. lia. }
  assert (Hg : forall init i x s, Forall (fun b => 128 <= b < 256) init -> 0 <= i -> i + zlen init <= 9 ->
    (i + zlen init = 9 -> lst <= 1) ->
    uvarint_loop_117 (init ++ lst :: r) i x s = uvarint_loop (init ++ lst :: r) i x s).
  { clear - Hl. induction init as [|b init IH]; intros i x s Hin Hi H9 Hlst; cbn [app uvarint_loop uvarint_loop_117].
    - rewrite zlen_nil in *. replace (lst <? 128) with true by lia. replace (i =? 10) with false by lia.
      replace (9 <? i) with false by lia. reflexivity.
    - apply Forall_cons in Hin as [Hb Hin]. rewrite zlen_cons in *. pose proof (zlen_nonneg init).
      replace (b <? 128) with false by lia. replace (i =? 10) with false by lia. apply IH; try assumption; lia. }
  apply Hg; [exact Hin|lia| |intros E; apply H9; lia]. rewrite app_length in Hlen. cbn [length] in Hlen. unfold zlen. lia.
Qed.

Section Reads.
Context (uv : list Z -> Z * Z) (Huv : reads_varints uv).

Lemma uv_agree v vb r : is_varint v vb -> uv (vb ++ r) = uvarint (vb ++ r).
Proof using Huv. intros H. rewrite (Huv v vb r H), (uvarint_spec v vb r H). reflexivity. Qed.

Lemma fieldDataSize_u_same w pb r : payload_enc w pb -> fieldDataSize_u uv (wire_type w) (pb ++ r) = fieldDataSize (wire_type w) (pb ++ r).
Proof using Huv.
  intros Hp. unfold fieldDataSize_u, fieldDataSize. destruct w; cbn [wire_type payload_enc] in *; try reflexivity.
  - rewrite (uv_agree v pb r Hp). reflexivity.
  - destruct Hp as (lb & -> & Hv & _). rewrite <- app_assoc, (uv_agree _ lb _ Hv). reflexivity.
Qed.

(** One unfolding of the loop at a record. *)
Lemma decode_step_u fuel b1 c rest reps o :
  cvalid c -> zlen (b1 ++ cbytes c ++ rest) < 2 ^ 63 ->
  decode_loop_u uv (S fuel) (b1 ++ cbytes c ++ rest) reps (zlen b1) o =
    let* o' := dec_upd reps o (cf c) (zlen b1 + zlen (ct c)) in
    decode_loop_u uv fuel (b1 ++ cbytes c ++ rest) reps (zlen b1 + zlen (cbytes c)) o'.
Proof using Huv.
  intros [Ht Hp] Hlen. cbn [decode_loop_u].
  pose proof (tag_len _ _ Ht) as Htl. pose proof (payload_len_pos _ _ Hp) as Hpl.
  assert (Hc : zlen (cbytes c) = zlen (ct c) + zlen (cp c)) by (unfold cbytes; apply zlen_app).
  assert (Hb : zlen (b1 ++ cbytes c ++ rest) = zlen b1 + zlen (cbytes c) + zlen rest)
    by (rewrite !zlen_app; lia).
  pose proof (zlen_nonneg b1). pose proof (zlen_nonneg rest).
  replace (zlen b1 =? zlen (b1 ++ cbytes c ++ rest)) with false by lia.
  replace (zlen (b1 ++ cbytes c ++ rest) <? zlen b1) with false by lia.
  rewrite slice_from_app. cbn [rbind].
  replace (cbytes c ++ rest) with (ct c ++ cp c ++ rest) at 1 by (unfold cbytes; rewrite app_assoc; reflexivity).
  rewrite (Huv _ _ (cp c ++ rest) (proj2 Ht)).
  replace (zlen (ct c) =? 0) with false by lia.
  rewrite (i64_small (zlen b1 + zlen (ct c))) by lia.
  replace (zlen (b1 ++ cbytes c ++ rest) <=? zlen b1 + zlen (ct c)) with false by lia.
  destruct (tag_field _ _ Ht) as (_ & -> & ->). cbn [crecord fst snd].
  rewrite u64_small by (revert Hlen; change (2 ^ 63) with 9223372036854775808; change (2 ^ 64) with 18446744073709551616; lia).
  unfold dec_upd. fold (dec_upd reps o (cf c) (zlen b1 + zlen (ct c))).
  destruct (dec_upd reps o (cf c) (zlen b1 + zlen (ct c))) as [o'| | |]; cbn [rbind]; try reflexivity.
  replace (b1 ++ cbytes c ++ rest) with ((b1 ++ ct c) ++ cp c ++ rest) at 1
    by (unfold cbytes; rewrite <- !app_assoc; reflexivity).
  rewrite slice_from_app' by (rewrite zlen_app; reflexivity). cbn [rbind].
  rewrite (fieldDataSize_u_same (cw c) (cp c) rest Hp), (fieldDataSize_ok (cw c) (cp c) rest Hp) by lia. cbn [rbind].
  replace (zlen (cp c) =? 0) with false by lia.
  rewrite i64_small by lia. rewrite Hc. f_equal. lia.
Qed.

Lemma decode_loop_u_same reps cs : forall pre fuel o,
  Forall cvalid cs -> zlen (pre ++ flat cs) < 2 ^ 63 ->
  decode_loop_u uv fuel (pre ++ flat cs) reps (zlen pre) o = decode_loop fuel (pre ++ flat cs) reps (zlen pre) o.
Proof using Huv.
  induction cs as [|c cs IH]; intros pre fuel o Hv Hlen; (destruct fuel as [|fuel]; [reflexivity|]).
  - cbn [flat decode_loop_u decode_loop]. rewrite app_nil_r, Z.eqb_refl. reflexivity.
  - apply Forall_cons in Hv as [Hc Hv]. cbn [flat] in *.
    rewrite decode_step_u, decode_step by assumption.
    destruct (dec_upd _ _ _ _) as [o'| | |]; cbn [rbind]; try reflexivity.
    rewrite app_assoc in *. rewrite <- zlen_app. apply IH; assumption.
Qed.

Lemma m_Decode_u_flat mt m cs :
  Forall cvalid cs -> zlen (flat cs) < 2 ^ 63 -> m_Decode_u uv mt m (flat cs) = m_Decode mt m (flat cs).
Proof using Huv.
  intros H1 H3. unfold m_Decode_u, m_Decode, Decode_u, Decode.
  change 0 with (zlen (@nil Z)) at 1 2. change (flat cs) with ([] ++ flat cs).
  rewrite decode_loop_u_same by assumption. reflexivity.
Qed.

Lemma m_Decode_u_wire mt m rs p : wire rs p -> zlen p < 2 ^ 63 -> m_Decode_u uv mt m p = m_Decode mt m p.
Proof using Huv.
  intros Hw Hl. apply wire_concrete in Hw as (cs & Hv & <- & <-). apply m_Decode_u_flat; assumption.
Qed.

(** ** Iterators *)
Lemma find_loop_u_ok f post : forall pre fuel,
  Forall cvalid post -> zlen (pre ++ flat post) < 2 ^ 63 -> (length post < fuel)%nat ->
  find_loop_u uv fuel (pre ++ flat post) f (zlen pre) = Ok (next_rest f post).
Proof using Huv.
  induction post as [|c post IH]; intros pre fuel Hv Hlen Hfuel; (destruct fuel as [|fuel]; [lia|]).
  - cbn [flat find_loop_u next_rest]. rewrite app_nil_r. replace (zlen pre <? zlen pre) with false by lia. reflexivity.
  - apply Forall_cons in Hv as [[Ht Hp] Hv].
    pose proof (tag_len _ _ Ht) as Htl. pose proof (payload_len_pos _ _ Hp) as Hpl.
    cbn [flat find_loop_u next_rest]. cbn [flat] in Hlen. unfold cbytes in *.
    rewrite <- !app_assoc in *. rewrite !zlen_app in *.
    pose proof (zlen_nonneg pre). pose proof (zlen_nonneg (flat post)).
    replace (zlen pre <? _) with true by lia. rewrite slice_from_app. cbn [rbind].
    rewrite (Huv _ _ (cp c ++ flat post) (proj2 Ht)).
    destruct (tag_field _ _ Ht) as (_ & -> & ->). cbn [crecord fst snd]. cbn zeta.
    rewrite (i64_small (zlen pre + zlen (ct c))) by lia.
    assert (Hsf : slice_from (pre ++ ct c ++ cp c ++ flat post) (zlen pre + zlen (ct c)) = Ok (cp c ++ flat post)).
    { rewrite app_assoc. apply slice_from_app'. rewrite zlen_app. reflexivity. }
    rewrite Hsf. cbn [rbind]. destruct (cf c =? f); [reflexivity|].
    rewrite (fieldDataSize_u_same (cw c) (cp c) (flat post) Hp), (fieldDataSize_ok (cw c) (cp c) (flat post) Hp) by lia. cbn [rbind].
    rewrite i64_small by lia.
    replace (pre ++ ct c ++ cp c ++ flat post) with ((pre ++ ct c ++ cp c) ++ flat post) by (rewrite <- !app_assoc; reflexivity).
    replace (zlen pre + zlen (ct c) + zlen (cp c)) with (zlen (pre ++ ct c ++ cp c)) by (rewrite !zlen_app; lia).
    cbn [length] in Hfuel. apply IH; [exact Hv| |lia]. rewrite !zlen_app. lia.
Qed.

Lemma FindNextField_u_ok f x pb post :
  payload_enc (WBytes x) pb -> Forall cvalid post -> zlen (pb ++ flat post) < 2 ^ 63 ->
  FindNextField_u uv (find_fuel (Some (pb ++ flat post))) (Some (pb ++ flat post)) f = Ok (next_rest f post, Some x).
Proof using Huv.
  intros (lb & -> & Hv & Hb) Hpost Hlen. unfold FindNextField_u. cbn [find_fuel]. rewrite <- !app_assoc in *.
  rewrite (Huv _ _ (x ++ flat post) Hv). fold (zlen x).
  pose proof (is_varint_len _ _ Hv). pose proof (zlen_nonneg x). pose proof (zlen_nonneg (flat post)).
  rewrite !zlen_app in Hlen.
  rewrite (i64_small (zlen x)) by lia. rewrite i64_small by lia.
  rewrite slice_range_app by lia. cbn [rbind].
  replace (lb ++ x ++ flat post) with ((lb ++ x) ++ flat post) by (rewrite <- app_assoc; reflexivity).
  replace (zlen lb + zlen x) with (zlen (lb ++ x)) by apply zlen_app.
  rewrite find_loop_u_ok; [reflexivity|exact Hpost|rewrite !zlen_app; lia|].
  unfold fuel_of. rewrite app_length. pose proof (length_flat post Hpost). lia.
Qed.

(** [p] is a well-formed message. *)
Definition wellformed (p : list Z) : Prop := exists rs, wire rs p.

Lemma iterate_u_same mt f : forall n cs m,
  Forall cvalid cs -> all_bytes f cs -> zlen (flat cs) < 2 ^ 63 ->
  Forall wellformed (read_repeated (occ f (map crecord cs))) ->
  iterate_u uv n mt (next_rest f cs) f m = iterate n mt (next_rest f cs) f m.
Proof using Huv.
  intros n cs. revert n. induction cs as [|c cs IH]; intros n m Hv Hb Hlen Hpl; (destruct n as [|n]; [reflexivity|]).
  - reflexivity.
  - cbn [map occ crecord next_rest] in *. apply Forall_cons in Hv as [[Ht Hp] Hv].
    cbn [flat] in Hlen. unfold cbytes in Hlen. rewrite !zlen_app in Hlen.
    pose proof (zlen_nonneg (ct c)). pose proof (zlen_nonneg (cp c)). pose proof (zlen_nonneg (flat cs)).
    assert (Hb' : all_bytes f cs) by (intros c' Hc'; apply Hb; right; exact Hc').
    destruct (Z.eqb_spec (cf c) f) as [Hc|Hc]; [|apply IH; [assumption..|lia|assumption]].
    destruct (Hb c ltac:(left) Hc) as [x Hx]. rewrite Hx in *. cbn [iterate iterate_u]. unfold it_Next, it_Next_u.
    rewrite FindNextField_ok with (x := x) by (try assumption; rewrite zlen_app; lia).
    rewrite FindNextField_u_ok with (x := x) by (try assumption; rewrite zlen_app; lia). cbn [rbind].
    cbn [read_repeated map bytes_of] in Hpl. apply Forall_cons in Hpl as [[rs Hp1] Hp2].
    rewrite (m_Decode_u_wire _ _ rs); [|exact Hp1|].
    2:{ destruct Hp as (lb & Hcp & _). rewrite Hcp, zlen_app in *. pose proof (zlen_nonneg lb). lia. }
    destruct (m_Decode mt m x) as [[err m']| | |]; cbn [rbind]; [|reflexivity..].
    fold (iterate_u uv). rewrite (IH n m') by (try assumption; lia). reflexivity.
Qed.

(** ** Setters *)
Lemma old_len_u_same l1 w pb r :
  payload_enc w pb ->
  old_len_u uv (l1 ++ pb ++ r) (zlen l1) (wire_type w) = old_len (l1 ++ pb ++ r) (zlen l1) (wire_type w).
Proof using Huv.
  intros Hp. unfold old_len_u, old_len. rewrite slice_from_app. cbn [rbind].
  destruct w; cbn [wire_type payload_enc] in *; try reflexivity.
  - rewrite (uv_agree _ _ r Hp). reflexivity.
  - destruct Hp as (lb & -> & Hv & _). rewrite <- app_assoc, (uv_agree _ _ _ Hv). reflexivity.
Qed.

Lemma setSingle_u_same reps o cs f w valLen val :
  Forall cvalid cs -> owf o -> indexes reps o cs -> in_range o f ->
  is_repeated reps f = false -> settable f w cs ->
  setSingle_u uv (flat cs) o f (wire_type w) valLen val = setSingle (flat cs) o f (wire_type w) valLen val.
Proof using Huv.
  intros Hv Hwf Hi Hr Hnr Hset. unfold setSingle_u, setSingle, setSingle_ord.
  destruct (put_uvarint _ _) as [tb| | |]; cbn [rbind]; try reflexivity.
  pose proof (offsets_get_eq o f Hwf Hr) as Hg. pose proof (Hi f Hr) as Ho. unfold pick in Ho. rewrite Hnr in Ho.
  destruct (decide (occ f (map crecord cs) = [])) as [Hocc|Hocc].
  - rewrite (proj2 (poss_nil_iff f 0 cs) Hocc) in Ho. cbn in Ho. rewrite Ho in Hg. rewrite Hg. reflexivity.
  - destruct (split_last f cs Hocc) as (pre & c & post & -> & Hc & Hpost). destruct (Hset _ _ _ eq_refl Hc Hpost) as [Hwt _].
    rewrite (in_range_occ_pos _ _ _ _ Hi Hr Hnr _ _ _ eq_refl Hc Hpost) in Hg. rewrite Hg. cbn [rbind].
    apply Forall_app in Hv as [_ Hv]. apply Forall_cons in Hv as [[_ Hp] _].
    assert (E : old_len_u uv (flat (pre ++ c :: post)) (zlen (flat pre) + zlen (ct c)) (wire_type w) =
                old_len (flat (pre ++ c :: post)) (zlen (flat pre) + zlen (ct c)) (wire_type w)).
    { rewrite flat_app in *. cbn [flat] in *. unfold cbytes in *.
      replace (flat pre ++ (ct c ++ cp c) ++ flat post) with ((flat pre ++ ct c) ++ cp c ++ flat post) by (rewrite <- !app_assoc; reflexivity).
      rewrite <- zlen_app, <- Hwt. apply old_len_u_same, Hp. }
    rewrite E. reflexivity.
Qed.

(** The setters hand everything but fixed values to setSingle. *)
Lemma m_set_u_of T m f v :
  (forall valLen val,
     setSingle_u uv (mbuf m) (moff m) f (ptype_wire_type T) valLen val =
     setSingle (mbuf m) (moff m) f (ptype_wire_type T) valLen val) ->
  m_set_u uv T m f v = m_set T m f v.
Proof using.
  intros H. unfold m_set_u, m_set, m_set_ord.
  destruct T, v as [b|z|x|x]; try reflexivity; cbn [ptype_wire_type] in H; cbn zeta;
    unfold SetBool_ord, SetInt32_ord, SetInt64_ord, SetUint32_ord, SetUint64_ord, SetZigZagInt32_ord, SetZigZagInt64_ord,
      SetFixedUint32_ord, SetFixedUint64_ord, SetFixedInt32_ord, SetFixedInt64_ord, SetFloat32_ord, SetFloat64_ord, SetString_ord, SetBytes_ord;
    change (setSingle_ord (fun ks => ks)) with setSingle;
    try (rewrite H; reflexivity);
    unfold put_varint; try (destruct (z <? 0));
    match goal with |- context [put_uvarint ?c ?x] =>
      destruct (put_uvarint c x) as [bs| | |] eqn:E; cbn [rbind]; try reflexivity end;
    rewrite H; reflexivity.
Qed.

(** ** Getters *)

(** Where the bytes at the offset of the field are a payload of its type. *)
Lemma m_get_u_payload T l1 w pb r o f :
  payload_enc w pb -> wire_type w = ptype_wire_type T -> offsets_get o f = Ok (zlen l1, true) ->
  m_get_u uv T (mkMsg (l1 ++ pb ++ r) o) f = m_get T (mkMsg (l1 ++ pb ++ r) o) f.
Proof using Huv.
  intros Hp Hw Hg.
  assert (Hs : slice_from (l1 ++ pb ++ r) (zlen l1) = Ok (pb ++ r)) by apply slice_from_app.
  destruct T; try reflexivity; cbn [m_get_u m_get mbuf moff];
    unfold get_varint_u, get_zigzag_u, GetBool, GetInt32, GetInt64, GetUint32, GetUint64, GetZigZagInt32, GetZigZagInt64,
      GetString_u, GetBytes_u, GetString, GetBytes, with_offset, varint_u, varint; rewrite Hg; cbn [rbind]; rewrite Hs; cbn [rbind];
    destruct w; cbn [wire_type ptype_wire_type payload_enc] in *; try discriminate Hw;
    try (rewrite (uv_agree _ _ r Hp); reflexivity);
    destruct Hp as (lb & -> & Hv & _); rewrite <- (app_assoc lb), (uv_agree _ _ _ Hv); reflexivity.
Qed.

Lemma m_get_u_same mt sc m cs f T :
  schema_ok mt sc -> Rep mt sc m cs -> sc f = Some (KSingle T) ->
  m_get_u uv T m f = m_get T m f.
Proof using Huv.
  intros (_ & Hrange & _ & Hsing) Hm Hf. destruct m as [buf o].
  destruct Hm as [Hbuf Hmin Hwf Hl Hidx Hty]. cbn [mbuf moff] in *. subst buf.
  assert (Hr : in_range o f) by (unfold in_range; rewrite Hl; eapply Hrange, Hf).
  assert (Hnr : is_repeated (reps mt) f = false).
  { destruct (is_repeated (reps mt) f) eqn:E; [|reflexivity]. apply is_repeated_In in E. exfalso. eapply Hsing; eassumption. }
  pose proof (offsets_get_eq o f Hwf Hr) as Hg. pose proof (Hidx f Hr) as Ho. unfold pick in Ho. rewrite Hnr in Ho.
  destruct (decide (occ f (map crecord cs) = [])) as [Hocc|Hocc].
  - rewrite (proj2 (poss_nil_iff f 0 cs) Hocc) in Ho. cbn in Ho. rewrite Ho in Hg.
    destruct T; try reflexivity; cbn [m_get_u m_get mbuf moff];
      unfold get_varint_u, get_zigzag_u, GetBool, GetInt32, GetInt64, GetUint32, GetUint64, GetZigZagInt32, GetZigZagInt64,
        GetString_u, GetBytes_u, GetString, GetBytes, with_offset; rewrite Hg; reflexivity.
  - destruct (split_last f cs Hocc) as (pre & c & post & -> & Hc & Hpost).
    rewrite (in_range_occ_pos _ _ _ _ Hidx Hr Hnr _ _ _ eq_refl Hc Hpost) in Hg.
    apply cmin_valid in Hmin. apply Forall_app in Hmin as [_ Hmin]. apply Forall_cons in Hmin as [[_ Hp] _].
    apply Forall_app in Hty as [_ Hty]. apply Forall_cons in Hty as [[_ Hc'] _].
    unfold well_typed in Hc'. cbn [crecord fst snd] in Hc'. rewrite Hc, Hf in Hc'. destruct Hc' as [Hwt _].
    rewrite flat_app in *. cbn [flat] in *. unfold cbytes in *.
    replace (flat pre ++ (ct c ++ cp c) ++ flat post) with ((flat pre ++ ct c) ++ cp c ++ flat post) in * by (rewrite <- !app_assoc; reflexivity).
    rewrite <- zlen_app in Hg. eapply m_get_u_payload; eassumption.
Qed.

(** ** Histories *)
Lemma step_u_same mt sc m cs o :
  schema_ok mt sc -> Rep mt sc m cs ->
  op_ok (Z.of_nat (alen mt)) sc o -> zlen (mbuf m) + op_size o < 2 ^ 63 ->
  step_u uv mt sc m o = step mt sc m o.
Proof using Huv.
  intros Hsc Hm Hop Hsz. pose proof Hsc as (_ & Hrange & Hrep & Hsing). pose proof (zlen_nonneg (mbuf m)) as Hm0.
  destruct o as [f v|f x| |rs bs]; cbn [op_ok op_size step step_u] in *; [..|reflexivity|].
  - destruct Hop as (T & Hf & Hin). rewrite Hf.
    apply m_set_u_of. intros valLen val. destruct m as [buf o]. destruct Hm as [Hbuf Hmin Hwf Hlen Hidx Hty].
    cbn [mbuf moff] in *. subst buf. destruct (conforms_wire_of T v Hin) as [Hwt _]. rewrite <- Hwt.
    apply setSingle_u_same with (reps := reps mt); try assumption.
    + apply cmin_valid, Hmin.
    + unfold in_range. rewrite Hlen. eapply Hrange, Hf.
    + destruct (is_repeated (reps mt) f) eqn:E; [|reflexivity]. apply is_repeated_In in E. exfalso. eapply Hsing; eassumption.
    + intros pre c post -> Hc Hpost. split.
      * apply Forall_app in Hty as [_ Hty]. apply Forall_cons in Hty as [[_ Hc'] _].
        unfold well_typed in Hc'. cbn [crecord fst snd] in Hc'. rewrite Hc, Hf in Hc'.
        destruct Hc' as [Hc' _]. rewrite Hc', Hwt. reflexivity.
      * apply Forall_app in Hmin as [_ Hmin]. apply Forall_cons in Hmin as [[_ Hc'] _]. exact Hc'.
  - reflexivity.
  - destruct Hop as (Hw & Hty). rewrite (m_Decode_u_wire _ _ rs); [reflexivity| |unfold zlen; lia].
    apply wire_min_wire, Hw.
Qed.

Lemma run_u_same mt sc os : forall m cs,
  schema_ok mt sc -> Rep mt sc m cs ->
  Forall (op_ok (Z.of_nat (alen mt)) sc) os -> zlen (mbuf m) + ops_size os < 2 ^ 63 ->
  run_u uv mt sc m os = run mt sc m os.
Proof using Huv.
  induction os as [|o os IH]; intros m cs Hsc Hm Hok Hsz; [reflexivity|].
  apply Forall_cons in Hok as [Ho Hok]. rewrite ops_size_cons in Hsz. pose proof (ops_size_nonneg os).
  cbn [run_u run]. rewrite (step_u_same mt sc m cs) by (try assumption; lia).
  destruct (rep_step mt sc m cs o (view sc (map crecord cs))) as (m1 & cs1 & He & Hm1 & _ & Hl1 & _); try assumption; try reflexivity; [lia|].
  rewrite He. cbn [rbind]. apply (IH m1 cs1); try assumption. lia.
Qed.
End Reads.
