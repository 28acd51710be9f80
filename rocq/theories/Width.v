(** * The program for 32-bit ints agrees with the 64-bit one on small well-formed messages *)
From Verif Require Import Runtime32 Spec VarintFacts OffsetsFacts RecFacts DecodeFacts DecodeClass SetFacts GetFacts IterFacts Fuel Api ApiFacts ApiInv Core.
From Coq Require Import ZifyBool.

Lemma i32_small z : - 2 ^ 31 <= z < 2 ^ 31 -> i32 z = z.
Proof. change (2 ^ 31) with 2147483648. intros H. unfold i32. rewrite Z.mod_small; lia. Qed.

Lemma p31_63 : 2 ^ 31 < 2 ^ 63. Proof. reflexivity. Qed.

Lemma tag_field32 r tb :
  tag_enc r tb -> r.1 < 2 ^ 31 ->
  i32 (Z.shiftr (8 * r.1 + wire_type r.2) 3) = r.1.
Proof.
  intros [H0 Hv] H. rewrite shiftr_3. pose proof (wire_type_range r.2).
  replace ((8 * r.1 + wire_type r.2) / 8) with r.1 by (apply Z.div_unique with (wire_type r.2); lia).
  apply i32_small. lia.
Qed.

Lemma fieldDataSize32_ok w pb r :
  payload_enc w pb -> zlen pb < 2 ^ 31 -> fieldDataSize_w i32 (wire_type w) (pb ++ r) = Ok (zlen pb).
Proof.
  intros Hp Hlt. unfold fieldDataSize_w, WireVarint, WireFixed32, WireFixed64, WireBytes.
  destruct w; cbn [wire_type payload_enc] in *.
  - rewrite (uvarint_spec v pb r Hp). reflexivity.
  - apply is_fixed_len in Hp. rewrite Hp. reflexivity.
  - destruct Hp as (lb & -> & Hv & _). rewrite zlen_app in *.
    rewrite <- app_assoc. change (2 =? 0) with false. change (2 =? 5) with false.
    change (2 =? 1) with false. change (2 =? 2) with true. cbn iota.
    rewrite (uvarint_spec _ lb (bs ++ r) Hv).
    pose proof (is_varint_len _ _ Hv). replace (zlen lb =? 0) with false by lia.
    fold (zlen bs). pose proof (zlen_nonneg bs).
    rewrite !i32_small by (rewrite ?i32_small; lia). reflexivity.
  - apply is_fixed_len in Hp. rewrite Hp. reflexivity.
Qed.

Lemma decode_step32 fuel b1 c rest reps o :
  cvalid c -> cf c < 2 ^ 31 -> zlen (b1 ++ cbytes c ++ rest) < 2 ^ 31 ->
  decode_loop_w i32 (S fuel) (b1 ++ cbytes c ++ rest) reps (zlen b1) o =
    let* o' := dec_upd reps o (cf c) (zlen b1 + zlen (ct c)) in
    decode_loop_w i32 fuel (b1 ++ cbytes c ++ rest) reps (zlen b1 + zlen (cbytes c)) o'.
Proof.
  intros [Ht Hp] Hcf Hlen. cbn [decode_loop_w].
  pose proof (tag_len _ _ Ht) as Htl. pose proof (payload_len_pos _ _ Hp) as Hpl.
  assert (Hc : zlen (cbytes c) = zlen (ct c) + zlen (cp c)) by (unfold cbytes; apply zlen_app).
  assert (Hb : zlen (b1 ++ cbytes c ++ rest) = zlen b1 + zlen (cbytes c) + zlen rest)
    by (rewrite !zlen_app; lia).
  pose proof (zlen_nonneg b1). pose proof (zlen_nonneg rest).
  replace (zlen b1 =? zlen (b1 ++ cbytes c ++ rest)) with false by lia.
  replace (zlen (b1 ++ cbytes c ++ rest) <? zlen b1) with false by lia.
  rewrite slice_from_app. cbn [rbind].
  replace (cbytes c ++ rest) with (ct c ++ cp c ++ rest) at 1 by (unfold cbytes; rewrite app_assoc; reflexivity).
  rewrite (uvarint_spec _ _ (cp c ++ rest) (proj2 Ht)).
  replace (zlen (ct c) =? 0) with false by lia.
  rewrite (i32_small (zlen b1 + zlen (ct c))) by lia.
  replace (zlen (b1 ++ cbytes c ++ rest) <=? zlen b1 + zlen (ct c)) with false by lia.
  destruct (tag_field _ _ Ht) as (_ & _ & ->). rewrite (tag_field32 _ _ Ht Hcf). cbn [crecord fst snd].
  pose proof p31_63. rewrite u64_small by (revert Hlen; change (2 ^ 31) with 2147483648; change (2 ^ 64) with 18446744073709551616; lia).
  unfold dec_upd. fold (dec_upd reps o (cf c) (zlen b1 + zlen (ct c))).
  destruct (dec_upd reps o (cf c) (zlen b1 + zlen (ct c))) as [o'| | |]; cbn [rbind]; try reflexivity.
  replace (b1 ++ cbytes c ++ rest) with ((b1 ++ ct c) ++ cp c ++ rest) at 1
    by (unfold cbytes; rewrite <- !app_assoc; reflexivity).
  rewrite slice_from_app' by (rewrite zlen_app; reflexivity). cbn [rbind].
  rewrite (fieldDataSize32_ok (cw c) (cp c) rest Hp) by lia. cbn [rbind].
  replace (zlen (cp c) =? 0) with false by lia.
  rewrite i32_small by lia. rewrite Hc. f_equal. lia.
Qed.

Lemma decode_loop32 reps cs : forall pre fuel o,
  Forall cvalid cs -> Forall (fun c => cf c < 2 ^ 31) cs -> zlen (pre ++ flat cs) < 2 ^ 31 ->
  decode_loop_w i32 fuel (pre ++ flat cs) reps (zlen pre) o = decode_loop fuel (pre ++ flat cs) reps (zlen pre) o.
Proof.
  induction cs as [|c cs IH]; intros pre fuel o Hv Hf Hlen; (destruct fuel as [|fuel]; [reflexivity|]).
  - cbn [flat decode_loop_w decode_loop]. rewrite app_nil_r, Z.eqb_refl. reflexivity.
  - apply Forall_cons in Hv as [Hc Hv]. apply Forall_cons in Hf as [Hcf Hf]. cbn [flat] in *.
    pose proof p31_63. rewrite decode_step32, decode_step by (try assumption; lia).
    destruct (dec_upd _ _ _ _) as [o'| | |]; cbn [rbind]; try reflexivity.
    rewrite app_assoc in *. rewrite <- zlen_app. apply IH; assumption.
Qed.

Lemma m_Decode32 mt m cs :
  Forall cvalid cs -> Forall (fun c => cf c < 2 ^ 31) cs -> zlen (flat cs) < 2 ^ 31 ->
  m_Decode_w i32 mt m (flat cs) = m_Decode mt m (flat cs).
Proof.
  intros H1 H2 H3. unfold m_Decode_w, m_Decode, Decode_w, Decode.
  change 0 with (zlen (@nil Z)) at 1 2. change (flat cs) with ([] ++ flat cs).
  rewrite decode_loop32 by assumption. reflexivity.
Qed.

(** ** Iterators *)
Lemma find_loop32 f post : forall pre fuel,
  Forall cvalid post -> Forall (fun c => cf c < 2 ^ 31) post -> zlen (pre ++ flat post) < 2 ^ 31 -> (length post < fuel)%nat ->
  find_loop_w i32 fuel (pre ++ flat post) f (zlen pre) = Ok (next_rest f post).
Proof.
  induction post as [|c post IH]; intros pre fuel Hv Hf Hlen Hfuel; (destruct fuel as [|fuel]; [lia|]).
  - cbn [flat find_loop_w next_rest]. rewrite app_nil_r. replace (zlen pre <? zlen pre) with false by lia. reflexivity.
  - apply Forall_cons in Hv as [[Ht Hp] Hv]. apply Forall_cons in Hf as [Hcf Hf].
    pose proof (tag_len _ _ Ht) as Htl. pose proof (payload_len_pos _ _ Hp) as Hpl.
    cbn [flat find_loop_w next_rest]. cbn [flat] in Hlen. unfold cbytes in *.
    rewrite <- !app_assoc in *. rewrite !zlen_app in *.
    pose proof (zlen_nonneg pre). pose proof (zlen_nonneg (flat post)).
    replace (zlen pre <? _) with true by lia. rewrite slice_from_app. cbn [rbind].
    rewrite (uvarint_spec _ _ (cp c ++ flat post) (proj2 Ht)).
    destruct (tag_field _ _ Ht) as (_ & _ & ->). rewrite (tag_field32 _ _ Ht Hcf). cbn [crecord fst snd]. cbn zeta.
    rewrite (i32_small (zlen pre + zlen (ct c))) by lia.
    assert (Hsf : slice_from (pre ++ ct c ++ cp c ++ flat post) (zlen pre + zlen (ct c)) = Ok (cp c ++ flat post)).
    { rewrite app_assoc. apply slice_from_app'. rewrite zlen_app. reflexivity. }
    rewrite Hsf. cbn [rbind]. destruct (cf c =? f); [reflexivity|].
    rewrite (fieldDataSize32_ok (cw c) (cp c) (flat post) Hp) by lia. cbn [rbind].
    rewrite i32_small by lia.
    replace (pre ++ ct c ++ cp c ++ flat post) with ((pre ++ ct c ++ cp c) ++ flat post) by (rewrite <- !app_assoc; reflexivity).
    replace (zlen pre + zlen (ct c) + zlen (cp c)) with (zlen (pre ++ ct c ++ cp c)) by (rewrite !zlen_app; lia).
    cbn [length] in Hfuel. apply IH; [exact Hv|exact Hf| |lia]. rewrite !zlen_app. lia.
Qed.

Lemma FindNextField32 f x pb post :
  payload_enc (WBytes x) pb -> Forall cvalid post -> Forall (fun c => cf c < 2 ^ 31) post -> zlen (pb ++ flat post) < 2 ^ 31 ->
  FindNextField_w i32 (find_fuel (Some (pb ++ flat post))) (Some (pb ++ flat post)) f = Ok (next_rest f post, Some x).
Proof.
  intros (lb & -> & Hv & Hb) Hpost Hf Hlen. unfold FindNextField_w. cbn [find_fuel]. rewrite <- !app_assoc in *.
  rewrite (uvarint_spec _ _ (x ++ flat post) Hv). fold (zlen x).
  pose proof (is_varint_len _ _ Hv). pose proof (zlen_nonneg x). pose proof (zlen_nonneg (flat post)).
  rewrite !zlen_app in Hlen.
  rewrite (i32_small (zlen x)) by lia. rewrite i32_small by lia.
  rewrite slice_range_app by lia. cbn [rbind].
  replace (lb ++ x ++ flat post) with ((lb ++ x) ++ flat post) by (rewrite <- app_assoc; reflexivity).
  replace (zlen lb + zlen x) with (zlen (lb ++ x)) by apply zlen_app.
  rewrite find_loop32; [reflexivity|exact Hpost|exact Hf|rewrite !zlen_app; lia|].
  unfold fuel_of. rewrite app_length. pose proof (length_flat post Hpost). lia.
Qed.

(** [p] decodes alike on both. *)
Definition plain (p : list Z) : Prop := exists rs, wire rs p /\ Forall (fun r => r.1 < 2 ^ 31) rs.

Lemma m_Decode_plain mt m p : plain p -> zlen p < 2 ^ 31 -> m_Decode_w i32 mt m p = m_Decode mt m p.
Proof.
  intros (rs & Hw & Hf) Hl. apply wire_concrete in Hw as (cs & Hv & <- & <-). apply m_Decode32; [exact Hv| |exact Hl].
  apply Forall_map in Hf. exact Hf.
Qed.

Lemma iterate32 mt f : forall n cs m,
  Forall cvalid cs -> Forall (fun c => cf c < 2 ^ 31) cs -> all_bytes f cs -> zlen (flat cs) < 2 ^ 31 ->
  Forall plain (read_repeated (occ f (map crecord cs))) ->
  iterate_w i32 n mt (next_rest f cs) f m = iterate n mt (next_rest f cs) f m.
Proof.
  intros n cs. revert n. induction cs as [|c cs IH]; intros n m Hv Hf Hb Hlen Hpl; (destruct n as [|n]; [reflexivity|]).
  - reflexivity.
  - cbn [map occ crecord next_rest] in *. apply Forall_cons in Hv as [[Ht Hp] Hv]. apply Forall_cons in Hf as [Hcf Hf].
    cbn [flat] in Hlen. unfold cbytes in Hlen. rewrite !zlen_app in Hlen.
    pose proof (zlen_nonneg (ct c)). pose proof (zlen_nonneg (cp c)). pose proof (zlen_nonneg (flat cs)).
    assert (Hb' : all_bytes f cs) by (intros c' Hc'; apply Hb; right; exact Hc').
    destruct (Z.eqb_spec (cf c) f) as [Hc|Hc]; [|apply IH; [assumption..|lia|assumption]].
    destruct (Hb c ltac:(left) Hc) as [x Hx]. rewrite Hx in *. cbn [iterate iterate_w]. unfold it_Next, it_Next_w.
    pose proof p31_63.
    rewrite FindNextField_ok with (x := x) by (try assumption; rewrite zlen_app; lia).
    rewrite FindNextField32 with (x := x) by (try assumption; rewrite zlen_app; lia). cbn [rbind].
    cbn [read_repeated map bytes_of] in Hpl. apply Forall_cons in Hpl as [Hp1 Hp2].
    rewrite m_Decode_plain; [|exact Hp1|].
    2:{ destruct Hp as (lb & Hcp & _). rewrite Hcp, zlen_app in *. pose proof (zlen_nonneg lb). lia. }
    destruct (m_Decode mt m x) as [[err m']| | |]; cbn [rbind]; [|reflexivity..].
    fold (iterate_w i32). rewrite (IH n m') by (try assumption; lia). reflexivity.
Qed.

(** ** Setters *)
Lemma make_tag32 f t : 0 <= f < 2 ^ 28 -> make_tag_w i32 f t = make_tag f t.
Proof.
  intros Hf. unfold make_tag_w, make_tag. change (2 ^ 28) with 268435456 in Hf.
  assert (E : Z.shiftl f 3 = 8 * f) by (rewrite Z.shiftl_mul_pow2 by lia; change (2 ^ 3) with 8; lia).
  rewrite i32_small, i64_small; [reflexivity| |]; rewrite E; [pows; lia|change (2 ^ 31) with 2147483648; lia].
Qed.

Lemma old_len32 l1 w pb r :
  payload_enc w pb -> zlen pb < 2 ^ 31 ->
  old_len_w i32 (l1 ++ pb ++ r) (zlen l1) (wire_type w) = old_len (l1 ++ pb ++ r) (zlen l1) (wire_type w).
Proof.
  intros Hp Hlt. unfold old_len_w, old_len. destruct w; cbn [wire_type payload_enc] in *; try reflexivity.
  destruct Hp as (lb & -> & Hv & _). rewrite zlen_app in *. rewrite slice_from_app. cbn [rbind].
  rewrite <- app_assoc, (uvarint_spec _ lb (bs ++ r) Hv). fold (zlen bs). pose proof (zlen_nonneg bs).
  pose proof (is_varint_len _ _ Hv). pose proof p31_63.
  rewrite !i32_small by (rewrite ?i32_small; lia). rewrite !i64_small by (rewrite ?i64_small; lia). reflexivity.
Qed.

Lemma setSingle32 reps o cs f w valLen val :
  Forall cvalid cs -> owf o -> indexes reps o cs -> in_range o f -> zlen (oa o) <= 2 ^ 28 ->
  is_repeated reps f = false -> zlen (flat cs) < 2 ^ 31 -> zlen valLen + zlen val < 2 ^ 31 -> settable f w cs ->
  setSingle_w i32 (flat cs) o f (wire_type w) valLen val = setSingle (flat cs) o f (wire_type w) valLen val.
Proof.
  intros Hv Hwf Hi Hr Hn Hnr Hlen Hvl Hset. unfold setSingle_w, setSingle, setSingle_ord.
  rewrite make_tag32 by (unfold in_range in Hr; lia).
  rewrite i32_small by (pose proof (zlen_nonneg valLen); pose proof (zlen_nonneg val); lia).
  destruct (put_uvarint _ _) as [tb| | |]; cbn [rbind]; try reflexivity.
  pose proof (offsets_get_eq o f Hwf Hr) as Hg. pose proof (Hi f Hr) as Ho. unfold pick in Ho. rewrite Hnr in Ho.
  destruct (decide (occ f (map crecord cs) = [])) as [Hocc|Hocc].
  - rewrite (proj2 (poss_nil_iff f 0 cs) Hocc) in Ho. cbn in Ho. rewrite Ho in Hg. rewrite Hg. reflexivity.
  - destruct (split_last f cs Hocc) as (pre & c & post & -> & Hc & Hpost). destruct (Hset _ _ _ eq_refl Hc Hpost) as [Hwt _].
    rewrite (in_range_occ_pos _ _ _ _ Hi Hr Hnr _ _ _ eq_refl Hc Hpost) in Hg. rewrite Hg. cbn [rbind].
    apply Forall_app in Hv as [_ Hv]. apply Forall_cons in Hv as [[_ Hp] _].
    assert (E : old_len_w i32 (flat (pre ++ c :: post)) (zlen (flat pre) + zlen (ct c)) (wire_type w) =
                old_len (flat (pre ++ c :: post)) (zlen (flat pre) + zlen (ct c)) (wire_type w)).
    { rewrite flat_app in *. cbn [flat] in *. unfold cbytes in *. rewrite !zlen_app in Hlen.
      replace (flat pre ++ (ct c ++ cp c) ++ flat post) with ((flat pre ++ ct c) ++ cp c ++ flat post) by (rewrite <- !app_assoc; reflexivity).
      rewrite <- zlen_app, <- Hwt. apply old_len32; [exact Hp|].
      pose proof (zlen_nonneg (flat pre)). pose proof (zlen_nonneg (ct c)). pose proof (zlen_nonneg (flat post)). lia. }
    rewrite E. reflexivity.
Qed.

Lemma put_uvarint_len cap : forall x bs, put_uvarint cap x = Ok bs -> zlen bs <= Z.of_nat cap.
Proof.
  induction cap as [|cap IH]; intros x bs H; cbn [put_uvarint] in H; [discriminate|].
  destruct (128 <=? x).
  - destruct (put_uvarint cap _) as [r| | |] eqn:E; try discriminate. injection H as <-. apply IH in E. rewrite zlen_cons. lia.
  - injection H as <-. unfold zlen. cbn [length]. lia.
Qed.

(** The setters differ only in what they hand to setSingle. *)
Lemma m_set_w_of w T m f v :
  (forall valLen val, zlen valLen + zlen val <= 10 + pval_size v ->
     setSingle_w w (mbuf m) (moff m) f (ptype_wire_type T) valLen val =
     setSingle (mbuf m) (moff m) f (ptype_wire_type T) valLen val) ->
  m_set_w w T m f v = m_set T m f v.
Proof.
  intros H. unfold m_set_w, m_set, m_set_ord.
  destruct T, v as [b|z|x|x]; try reflexivity; cbn [ptype_wire_type pval_size] in H; cbn zeta;
    unfold SetBool_ord, SetInt32_ord, SetInt64_ord, SetUint32_ord, SetUint64_ord, SetZigZagInt32_ord, SetZigZagInt64_ord,
      SetFixedUint32_ord, SetFixedUint64_ord, SetFixedInt32_ord, SetFixedInt64_ord, SetFloat32_ord, SetFloat64_ord, SetString_ord, SetBytes_ord;
    change (setSingle_ord (fun ks => ks)) with setSingle;
    try (rewrite H by (unfold zlen; cbn [length put_le32 put_le64]; lia); reflexivity);
    unfold put_varint; try (destruct (z <? 0));
    match goal with |- context [put_uvarint ?c ?x] =>
      destruct (put_uvarint c x) as [bs| | |] eqn:E; cbn [rbind]; try reflexivity end;
    apply put_uvarint_len in E; unfold MaxVarintLen64, MaxVarintLen32 in E;
    (rewrite H; [reflexivity|]).
  all: try (rewrite zlen_nil; lia).
  all: unfold zlen in *; try (destruct x as [x|]; cbn [default length] in *); cbn; lia.
Qed.

(** ** Histories *)
Lemma step32 mt sc m cs o :
  schema_ok mt sc -> Z.of_nat (alen mt) <= 2 ^ 28 -> Rep mt sc m cs ->
  op_ok (Z.of_nat (alen mt)) sc o -> zlen (mbuf m) + op_size o < 2 ^ 31 ->
  step_w i32 mt sc m o = step mt sc m o.
Proof.
  intros Hsc H28 Hm Hop Hsz. pose proof Hsc as (_ & Hrange & Hrep & Hsing). pose proof (zlen_nonneg (mbuf m)) as Hm0.
  destruct o as [f v|f x| |rs bs]; cbn [op_ok op_size step step_w] in *; [..|reflexivity|].
  - destruct Hop as (T & Hf & Hin). rewrite Hf.
    assert (Hps : 0 <= pval_size v) by (destruct v as [| | |[|]]; cbn; lia).
    apply m_set_w_of. intros valLen val Hvl. destruct m as [buf o]. destruct Hm as [Hbuf Hmin Hwf Hlen Hidx Hty].
    cbn [mbuf moff] in *. subst buf. destruct (conforms_wire_of T v Hin) as [Hwt _]. rewrite <- Hwt.
    apply setSingle32 with (reps := reps mt); try assumption.
    + apply cmin_valid, Hmin.
    + unfold in_range. rewrite Hlen. eapply Hrange, Hf.
    + lia.
    + destruct (is_repeated (reps mt) f) eqn:E; [|reflexivity]. apply is_repeated_In in E. exfalso. eapply Hsing; eassumption.
    + lia.
    + lia.
    + intros pre c post -> Hc Hpost. split.
      * apply Forall_app in Hty as [_ Hty]. apply Forall_cons in Hty as [[_ Hc'] _].
        unfold well_typed in Hc'. cbn [crecord fst snd] in Hc'. rewrite Hc, Hf in Hc'.
        destruct Hc' as [Hc' _]. rewrite Hc', Hwt. reflexivity.
      * apply Forall_app in Hmin as [_ Hmin]. apply Forall_cons in Hmin as [[_ Hc'] _]. exact Hc'.
  - destruct Hop as (Hf & Hx). unfold m_append_w, m_append, AppendBytes.
    destruct (put_uvarint _ _) as [lb| | |]; cbn [rbind]; try reflexivity.
    unfold appendSingle_w, appendSingle. rewrite make_tag32; [reflexivity|]. specialize (Hrange _ _ Hf). lia.
  - destruct Hop as (Hw & Hty). rewrite m_Decode_plain; [reflexivity| |unfold zlen; lia].
    exists rs. split; [apply wire_min_wire, Hw|]. eapply Forall_impl; [exact Hty|]. intros r [Hr _]. cbn in Hr.
    assert (2 ^ 28 < 2 ^ 31) by reflexivity. lia.
Qed.

Lemma run32 mt sc os : forall m cs,
  schema_ok mt sc -> Z.of_nat (alen mt) <= 2 ^ 28 -> Rep mt sc m cs ->
  Forall (op_ok (Z.of_nat (alen mt)) sc) os -> zlen (mbuf m) + ops_size os < 2 ^ 31 ->
  run_w i32 mt sc m os = run mt sc m os.
Proof.
  induction os as [|o os IH]; intros m cs Hsc H28 Hm Hok Hsz; [reflexivity|].
  apply Forall_cons in Hok as [Ho Hok]. rewrite ops_size_cons in Hsz. pose proof (ops_size_nonneg os). pose proof p31_63.
  cbn [run_w run]. rewrite (step32 mt sc m cs) by (try assumption; lia).
  destruct (rep_step mt sc m cs o (view sc (map crecord cs))) as (m1 & cs1 & He & Hm1 & _ & Hl1 & _); try assumption; try reflexivity; [lia|].
  rewrite He. cbn [rbind]. apply (IH m1 cs1); try assumption. lia.
Qed.
