(** * Proofs about Decode on arbitrary bytes, iterators and appends *)
From Verif Require Import Runtime Spec VarintFacts OffsetsFacts RecFacts DecodeFacts DecodeClass SetFacts GetFacts IterFacts Fuel Api ApiFacts ApiInv Core.
From Coq Require Import ZifyBool.

(** ** Classification of the outcomes *)
Lemma m_Decode_class mt m bs :
  of_type mt m -> Forall is_byte bs -> zlen bs < 2 ^ 62 -> ~ malformed bs ->
  (exists m' rs, m_Decode mt m bs = Ok (None, m') /\ wire rs bs /\ Forall (fun r => r.1 < Z.of_nat (alen mt)) rs) \/
  (exists m', m_Decode mt m bs = Ok (Some ErrUnexpectedEOF, m') /\ forall rs, ~ wire rs bs) \/
  (m_Decode mt m bs = Panic /\ unsupported (Z.of_nat (alen mt)) bs).
Proof.
  intros Ht Hb Hl Hnm. unfold m_Decode, Decode.
  destruct (offsets_clear_ok (moff m)) as (Hwf & Hlc & _ & _). rewrite (of_type_zlen _ _ Ht) in Hlc.
  destruct (decode_class (reps mt) bs [] (offsets_clear (moff m)) (fuel_of bs)) as [(o' & rs & He & Hw & Hf)|[(o' & He & Hw)|(He & Hu)]];
    try assumption; [constructor|unfold fuel_of; lia|..]; cbn [flat app] in He; change (zlen (@nil Z)) with 0 in He; rewrite He; cbn [rbind].
  - left. rewrite Hlc in Hf. eauto.
  - right. left. eauto.
  - right. right. rewrite Hlc in Hu. auto.
Qed.

(** One iteration up to the panic. *)
Lemma decode_bad fuel b1 tag tb r reps o :
  is_varint tag tb -> r <> [] -> zlen (b1 ++ tb ++ r) < 2 ^ 63 ->
  zlen (oa o) <= tag / 8 \/ ~ (tag mod 8 = 0 \/ tag mod 8 = 1 \/ tag mod 8 = 2 \/ tag mod 8 = 5) ->
  decode_loop (S fuel) (b1 ++ tb ++ r) reps (zlen b1) o = Panic.
Proof.
  intros Hv Hr Hl Hbad. cbn [decode_loop]. rewrite !zlen_app in *.
  pose proof (is_varint_len _ _ Hv). pose proof (is_varint_nonneg _ _ Hv). pose proof (zlen_nonneg b1).
  assert (0 < zlen r) by (destruct r; [congruence|rewrite zlen_cons; pose proof (zlen_nonneg r); lia]).
  replace (_ =? _) with false by lia. replace (_ <? _) with false by lia.
  rewrite slice_from_app. cbn [rbind]. rewrite (uvarint_spec _ _ r Hv).
  replace (zlen tb =? 0) with false by lia. cbn zeta. rewrite (i64_small (zlen b1 + zlen tb)) by (revert Hl; pows; lia).
  replace (_ <=? _) with false by lia.
  assert (Htag8 : i64 (Z.shiftr tag 3) = tag / 8).
  { rewrite shiftr_3. apply i64_small. pows. Z.div_mod_to_equations. lia. }
  rewrite Htag8, land_7. fold (dec_upd reps o (tag / 8) (u64 (zlen b1 + zlen tb))).
  destruct (dec_upd_total reps o (tag / 8) (u64 (zlen b1 + zlen tb))) as [(o' & -> & Hin & _)|[-> _]]; [|reflexivity].
  cbn [rbind]. rewrite app_assoc. rewrite slice_from_app' by (rewrite zlen_app; reflexivity). cbn [rbind].
  destruct Hbad as [Hbad|Hwt]; [unfold in_range in Hin; lia|].
  unfold fieldDataSize, WireVarint, WireFixed32, WireFixed64, WireBytes.
  replace (tag mod 8 =? 0) with false by lia. replace (tag mod 8 =? 5) with false by lia.
  replace (tag mod 8 =? 1) with false by lia. replace (tag mod 8 =? 2) with false by lia. reflexivity.
Qed.

Lemma unsupported_panics mt m bs :
  of_type mt m -> zlen bs < 2 ^ 63 -> unsupported (Z.of_nat (alen mt)) bs -> m_Decode mt m bs = Panic.
Proof.
  intros Ht Hl (rs & pre & tag & tb & r & -> & Hw & Hv & Hr & Hbad).
  apply wire_concrete in Hw as (cs & Hcs & <- & <-).
  unfold m_Decode, Decode.
  destruct (offsets_clear_ok (moff m)) as (Hwf & Hlc & Hf & _). rewrite (of_type_zlen _ _ Ht) in Hlc.
  set (o := offsets_clear (moff m)) in *. clearbody o. clear m Ht.
  (* the first record out of range, if any *)
  assert (Hgen : exists cs1 tag1 tb1 r1, flat cs ++ tb ++ r = flat cs1 ++ tb1 ++ r1 /\ Forall cvalid cs1 /\
             Forall (fun c => cf c < Z.of_nat (alen mt)) cs1 /\
             is_varint tag1 tb1 /\ r1 <> [] /\
             (Z.of_nat (alen mt) <= tag1 / 8 \/ ~ (tag1 mod 8 = 0 \/ tag1 mod 8 = 1 \/ tag1 mod 8 = 2 \/ tag1 mod 8 = 5))).
  { clear Hl. induction cs as [|c cs IH].
    - exists [], tag, tb, r. split_and!; auto.
    - apply Forall_cons in Hcs as [Hc Hcs]. destruct (decide (cf c < Z.of_nat (alen mt))) as [Hin|Hout].
      + destruct (IH Hcs) as (cs1 & tag1 & tb1 & r1 & He & H1 & H2 & H3 & H4 & H5).
        exists (c :: cs1), tag1, tb1, r1. cbn [flat]. rewrite <- !app_assoc, He. split_and!; auto.
      + exists [], (8 * cf c + wire_type (cw c)), (ct c), (cp c ++ flat cs ++ tb ++ r). cbn [flat app].
        destruct Hc as [Hct Hcp]. split_and!; auto.
        * unfold cbytes. rewrite <- !app_assoc. reflexivity.
        * apply Hct.
        * apply payload_len_pos in Hcp. destruct (cp c); [rewrite zlen_nil in Hcp; lia|discriminate].
        * left. pose proof (wire_type_range (cw c)). Z.div_mod_to_equations. lia. }
  destruct Hgen as (cs1 & tag1 & tb1 & r1 & He & H1 & H2 & H3 & H4 & H5). rewrite He in *.
  destruct (decode_records (fuel_of (flat cs1 ++ tb1 ++ r1) - length cs1) [] cs1 (tb1 ++ r1) (reps mt) o)
    as (o' & Hd & Hwf' & Hl' & _); try assumption; [constructor|..].
  { apply indexes_nil, Hf. }
  { intros c Hc. unfold in_range. rewrite Hlc. rewrite Forall_forall in H1, H2. split; [apply (H1 c Hc)|apply H2, Hc]. }
  cbn [flat app] in Hd. change (zlen (@nil Z)) with 0 in Hd. rewrite Z.add_0_l in Hd.
  assert (Hfl : (length cs1 <= length (flat cs1))%nat) by (apply length_flat; assumption).
  assert (Hfu : fuel_of (flat cs1 ++ tb1 ++ r1) = (length cs1 + (fuel_of (flat cs1 ++ tb1 ++ r1) - length cs1))%nat).
  { unfold fuel_of. rewrite app_length. lia. }
  rewrite Hfu, Hd.
  destruct (fuel_of (flat cs1 ++ tb1 ++ r1) - length cs1)%nat as [|fuel] eqn:Ef.
  { exfalso. unfold fuel_of in Ef. rewrite app_length in Ef. lia. }
  rewrite (decode_bad fuel (flat cs1) tag1 tb1 r1); try assumption; [reflexivity|]. rewrite Hl', Hlc. exact H5.
Qed.

(** ** Truncation *)
Lemma cut_cases cs k :
  (k <= length (flat cs))%nat ->
  exists cs1 cs2, cs = cs1 ++ cs2 /\
    (take k (flat cs) = flat cs1 \/
     exists c cs3 k', cs2 = c :: cs3 /\ (0 < k' < length (cbytes c))%nat /\
       take k (flat cs) = flat cs1 ++ take k' (cbytes c)).
Proof.
  revert k. induction cs as [|c cs IH]; intros k Hk.
  - exists [], []. split; [reflexivity|]. left. destruct k; reflexivity.
  - cbn [flat] in *. rewrite app_length in Hk.
    destruct (decide (k = 0)%nat) as [->|Hk0]; [exists [], (c :: cs); auto|].
    destruct (decide (k < length (cbytes c))%nat) as [Hlt|Hge].
    + exists [], (c :: cs). split; [reflexivity|]. right. exists c, cs, k. split_and!; [reflexivity|lia|lia|].
      rewrite take_app_le by lia. reflexivity.
    + destruct (IH (k - length (cbytes c))%nat) as (cs1 & cs2 & -> & Hcut); [lia|].
      exists (c :: cs1), cs2. split; [reflexivity|]. rewrite take_app_ge by lia. cbn [flat].
      destruct Hcut as [->|(c' & cs3 & k' & -> & Hk' & ->)]; [left; reflexivity|].
      right. exists c', cs3, k'. split_and!; [reflexivity|lia|lia|]. rewrite app_assoc. reflexivity.
Qed.

Lemma not_wire_cut cs c k rs :
  Forall cvalid cs -> cvalid c -> zlen (flat cs ++ cbytes c) < 2 ^ 63 -> (0 < k < length (cbytes c))%nat ->
  ~ wire rs (flat cs ++ take k (cbytes c)).
Proof.
  intros Hcs Hc Hl Hk. revert rs. induction cs as [|c1 cs IH]; intros rs Hw.
  - cbn [flat app] in *. destruct (wire_first _ _ Hw) as (c' & rest & rs' & Hc' & He & _ & _).
    { intros E. apply (f_equal length) in E. rewrite take_length in E. cbn in E. lia. }
    assert (He' : cbytes c' ++ (rest ++ drop k (cbytes c)) = cbytes c ++ []).
    { rewrite app_assoc, <- He, app_nil_r, take_drop. reflexivity. }
    symmetry in He'. pose proof He' as He2. apply cbytes_det in He' as (_ & _ & Hn); try assumption.
    + symmetry in Hn. apply app_eq_nil in Hn as [_ Hn]. apply (f_equal length) in Hn. rewrite drop_length in Hn. cbn in Hn. lia.
    + rewrite app_nil_r. exact Hl.
  - apply Forall_cons in Hcs as [Hc1 Hcs]. cbn [flat] in *. rewrite <- !app_assoc in *.
    destruct (wire_first _ _ Hw) as (c' & rest & rs' & Hc' & He & Hw' & _).
    { destruct Hc1 as [Ht _]. apply tag_len in Ht. unfold cbytes. destruct (ct c1); [rewrite zlen_nil in Ht; lia|discriminate]. }
    rewrite zlen_app in Hl. pose proof (zlen_nonneg (cbytes c1)).
    apply cbytes_det in He as (_ & _ & <-); try assumption.
    + eapply IH; [assumption|lia|exact Hw'].
    + rewrite zlen_app. rewrite !zlen_app in *. unfold zlen in *. rewrite take_length. lia.
Qed.

Lemma truncation mt m rs bs k :
  of_type mt m -> wire rs bs -> Forall (fun r => r.1 < Z.of_nat (alen mt)) rs -> Z.of_nat (length bs) < 2 ^ 63 ->
  (k <= length bs)%nat ->
  (exists j m', wire (take j rs) (take k bs) /\ m_Decode mt m (take k bs) = Ok (None, m')) \/
  ((forall rs', ~ wire rs' (take k bs)) /\ exists m', m_Decode mt m (take k bs) = Ok (Some ErrUnexpectedEOF, m')).
Proof.
  intros Ht Hw Hr Hl Hk. apply wire_concrete in Hw as (cs & Hcs & <- & <-). fold (zlen (flat cs)) in Hl.
  rewrite Forall_map in Hr. cbn [crecord fst] in Hr. pose proof (of_type_zlen _ _ Ht) as Hz.
  destruct (cut_cases cs k Hk) as (cs1 & cs2 & -> & Hcut). apply Forall_app in Hcs as [H1 H2]. apply Forall_app in Hr as [Hr1 Hr2].
  rewrite flat_app, zlen_app in Hl. pose proof (zlen_nonneg (flat cs1)). pose proof (zlen_nonneg (flat cs2)).
  destruct Hcut as [Hcut|(c & cs3 & k' & -> & Hk' & Hcut)]; rewrite Hcut; clear Hcut.
  - left. destruct (decode_msg mt m cs1) as (o' & He & _); try assumption; [lia|].
    exists (length cs1), (mkMsg (flat cs1) o'). split; [|exact He]. rewrite map_app, take_app_alt by (rewrite map_length; reflexivity).
    apply wire_concrete. eauto.
  - right. apply Forall_cons in H2 as [Hc H3]. apply Forall_cons in Hr2 as [Hrc _].
    cbn [flat] in *. rewrite zlen_app in *. pose proof (zlen_nonneg (flat cs3)).
    split.
    + intros rs'. apply not_wire_cut; try assumption. rewrite zlen_app. lia.
    + destruct (decode_cut (fuel_of (flat cs1 ++ take k' (cbytes c))) cs1 c k' (reps mt) (moff m)) as (o' & He & _); try assumption.
      * rewrite zlen_app. lia.
      * intros c' Hc'. rewrite Forall_forall in H1, Hr1. unfold in_range. rewrite Hz. split; [apply (H1 c' Hc')|apply Hr1, Hc'].
      * unfold in_range. rewrite Hz. split; [apply Hc|exact Hrc].
      * unfold fuel_of. rewrite app_length. pose proof (length_flat cs1 H1). rewrite take_length. lia.
      * unfold m_Decode. rewrite He. cbn [rbind]. eauto.
Qed.

(** ** Last occurrence wins *)
Lemma last_wins mt m0 rs1 f w rs2 bs T :
  of_type mt m0 -> wire (rs1 ++ (f, w) :: rs2) bs ->
  Forall (fun r => r.1 < Z.of_nat (alen mt)) (rs1 ++ (f, w) :: rs2) -> Z.of_nat (length bs) < 2 ^ 63 ->
  (forall w', ~ In (f, w') rs2) -> ~ In f (reps mt) -> conforms T w ->
  exists m, m_Decode mt m0 bs = Ok (None, m) /\ m_get T m f = Ok (value_of T w).
Proof.
  intros Ht Hw Hr Hl Hno Hrep Hc.
  destruct (decode_accepts mt m0 _ bs Ht Hw Hr Hl) as (m & He & _ & Hget & _).
  exists m. split; [exact He|].
  assert (Hocc : occ f (rs1 ++ (f, w) :: rs2) = occ f rs1 ++ [w]).
  { rewrite occ_app. cbn [occ]. rewrite Z.eqb_refl. do 2 f_equal.
    clear -Hno. induction rs2 as [|[g w'] rs2 IH]; [reflexivity|]. cbn [occ].
    destruct (Z.eqb_spec g f) as [->|Hg]; [exfalso; eapply Hno; left; reflexivity|].
    apply IH. intros w'' Hin. eapply Hno. right. exact Hin. }
  rewrite (Hget f T); rewrite ?Hocc.
  - unfold read_single. rewrite last_snoc. reflexivity.
  - apply Forall_app in Hr as [_ Hr]. apply Forall_cons in Hr as [Hr _]. split; [|exact Hr].
    apply wire_concrete in Hw as (cs & Hcs & Hm & _).
    apply (f_equal (fun l => l !! length rs1)) in Hm. rewrite list_lookup_fmap, list_lookup_middle in Hm by reflexivity.
    destruct (cs !! length rs1) as [c|] eqn:Ec; [|discriminate]. injection Hm as Hm _.
    rewrite Forall_forall in Hcs. apply elem_of_list_lookup_2 in Ec. destruct (Hcs c Ec) as [[H0 _] _].
    cbn [crecord fst] in H0. lia.
  - exact Hrep.
  - intros w'. rewrite last_snoc. intros [= <-]. exact Hc.
Qed.

(** ** Iterators *)
Lemma it_Next_none mt' f x : it_Next mt' None f x = Ok (None, false, None, x).
Proof. reflexivity. Qed.

(** A payload the element type's Decode accepts. *)
Lemma accepted_decode mt' x p :
  of_type mt' x -> accepted mt' p -> zlen p < 2 ^ 63 ->
  exists y, m_Decode mt' x p = Ok (None, y) /\ m_Encode y = p /\ of_type mt' y.
Proof.
  intros Hx (rs & Hw & Hr) Hl. apply wire_concrete in Hw as (cs & Hcs & <- & <-). rewrite Forall_map in Hr.
  destruct (decode_msg mt' x cs) as (o' & He & _ & Hl' & _); try assumption; [apply of_type_zlen, Hx|].
  exists (mkMsg (flat cs) o'). split_and!; [exact He|reflexivity|]. unfold of_type. cbn [moff]. unfold zlen in Hl'. lia.
Qed.

(** What the client sees of a call of Next. *)
Lemma next_calls_none k mt' f x : exists l,
  next_calls k mt' None f x = Ok l /\ map seen l = replicate k None.
Proof.
  induction k as [|k (l & IH & Hl)]; [exists []; auto|].
  exists ((false, None, x) :: l). cbn [next_calls]. rewrite it_Next_none. cbn [rbind]. rewrite IH. cbn [rbind map seen replicate].
  rewrite Hl. auto.
Qed.

Lemma next_calls_rest mt' f k : forall cs x,
  of_type mt' x ->
  Forall cvalid cs -> all_bytes f cs -> zlen (flat cs) < 2 ^ 63 ->
  Forall (accepted mt') (read_repeated (occ f (map crecord cs))) ->
  exists l, next_calls k mt' (next_rest f cs) f x = Ok l /\
    map seen l = map (fun p => Some (None, p)) (take k (read_repeated (occ f (map crecord cs)))) ++
                 replicate (k - length (occ f (map crecord cs))) None.
Proof.
  induction k as [|k IHk]; [exists []; auto|].
  induction cs as [|c cs IH]; intros x Hx Hv Hb Hlen Hacc.
  - cbn [next_rest]. apply (next_calls_none (S k)).
  - apply Forall_cons in Hv as [[Ht Hp] Hv].
    cbn [flat] in Hlen. unfold cbytes in Hlen. rewrite !zlen_app in Hlen.
    pose proof (zlen_nonneg (ct c)). pose proof (zlen_nonneg (cp c)). pose proof (zlen_nonneg (flat cs)).
    assert (Hb' : all_bytes f cs) by (intros c' Hc'; apply Hb; right; exact Hc').
    cbn [map occ crecord next_rest] in *.
    destruct (Z.eqb_spec (cf c) f) as [Hc|Hc]; [|apply IH; [assumption..|lia|assumption]].
    destruct (Hb c ltac:(left) Hc) as [p Hpx]. rewrite Hpx in *. cbn [read_repeated map bytes_of] in *.
    apply Forall_cons in Hacc as [Hacc0 Hacc].
    assert (Hpl : zlen p <= zlen (cp c)).
    { destruct Hp as (lb & -> & _). rewrite zlen_app. pose proof (zlen_nonneg lb). lia. }
    destruct (accepted_decode mt' x p Hx Hacc0 ltac:(lia)) as (y & Hd & Hy & Hty).
    destruct (IHk cs y) as (l & Hl & Hseen); try assumption; [lia|].
    exists ((true, None, y) :: l). cbn [next_calls]. unfold it_Next.
    rewrite FindNextField_ok with (x := p) by (try assumption; rewrite zlen_app; lia). cbn [rbind].
    rewrite Hd. cbn [rbind]. rewrite Hl. cbn [rbind]. split; [reflexivity|].
    cbn [map seen take length Nat.sub app]. rewrite Hy, Hseen. reflexivity.
Qed.

Lemma iterator_exact mt m0 rs bs f mt' x k :
  of_type mt m0 -> wire rs bs -> Forall (fun r => r.1 < Z.of_nat (alen mt)) rs -> Z.of_nat (length bs) < 2 ^ 63 ->
  In f (reps mt) -> 0 <= f < Z.of_nat (alen mt) -> Forall (fun w => wire_type w = 2) (occ f rs) ->
  of_type mt' x -> Forall (accepted mt') (read_repeated (occ f rs)) ->
  exists m it l, m_Decode mt m0 bs = Ok (None, m) /\ m_Iter m f = Ok it /\
    next_calls k mt' it f x = Ok l /\
    map seen l = map (fun p => Some (None, p)) (take k (read_repeated (occ f rs))) ++
                 replicate (k - length (occ f rs)) None.
Proof.
  intros Ht Hw Hr Hl Hin Hf Hb Hx Hacc. apply wire_concrete in Hw as (cs & Hv & <- & <-). fold (zlen (flat cs)) in Hl.
  destruct (decode_msg mt m0 cs) as (o' & He & Hwf & Hl' & Hi & _); try assumption.
  { apply of_type_zlen, Ht. } { rewrite Forall_map in Hr. exact Hr. }
  destruct (next_calls_rest mt' f k cs x) as (l & Hn & Hs); try assumption.
  { intros c Hc Hcf. rewrite Forall_forall in Hb.
    assert (Hwt : wire_type (cw c) = 2).
    { apply Hb. clear -Hc Hcf. induction cs as [|c' cs IH]; [inversion Hc|].
      cbn [map occ crecord]. apply elem_of_cons in Hc as [->|Hc].
      - rewrite Hcf, Z.eqb_refl. left.
      - destruct (cf c' =? f); [right|]; apply IH, Hc. }
    destruct (cw c); try discriminate. eauto. }
  exists (mkMsg (flat cs) o'), (next_rest f cs), l. split_and!; try assumption.
  apply (m_Iter_ok (reps mt)); try assumption.
  - unfold in_range. rewrite Hl'. exact Hf.
  - apply is_repeated_In, Hin.
Qed.

(** ** Append *)
Lemma append_to mt sc os m f x :
  schema_ok mt sc -> history mt sc os m -> sc f = Some KRepeated -> Forall is_byte (m_Encode x) ->
  ops_size os + 20 + zlen (m_Encode x) < 2 ^ 63 ->
  exists m' ps, m_AppendTo m f x = Ok m' /\
    (forall g, g <> f -> same_at sc m m' g) /\
    (forall mt' y n, (length ps < n)%nat -> m_iterate n mt' m f y = decode_each mt' y ps) /\
    (forall mt' y n, (length ps + 1 < n)%nat -> m_iterate n mt' m' f y = decode_each mt' y (ps ++ [m_Encode x])).
Proof.
  intros Hsc Hh Hf Hx Hsz. pose proof (zlen_nonneg (m_Encode x)).
  destruct (hist_rep mt sc os m) as (cs & Hm & Hs & Hl); try assumption; [lia|].
  destruct (rep_append mt sc m cs f (m_Encode x)) as (m' & new & He & Hm' & Hnew & Hnf & Hnw & _ & Hpl & _); try assumption; [lia|].
  assert (Hl' : zlen (mbuf m') < 2 ^ 63).
  { rewrite (rep_buf _ _ _ _ Hm'), flat_app, zlen_app. cbn [flat]. rewrite app_nil_r. unfold cbytes. rewrite zlen_app.
    rewrite (rep_buf _ _ _ _ Hm) in Hl. destruct Hnew as [[Ht _] _]. apply tag_len in Ht. lia. }
  exists m', (read_repeated (occ f (map crecord cs))). split_and!.
  - exact He.
  - intros g Hg. eapply same_at_occ; try eassumption; [lia|]. unfold view. rewrite map_app, occ_app. cbn [map occ crecord].
    rewrite Hnf. replace (f =? g) with false by lia. rewrite app_nil_r. reflexivity.
  - intros mt' y n Hn. destruct (rep_iter mt sc m cs f) as (it & Hit & Hi); try assumption; [lia|].
    unfold m_iterate. rewrite Hit. cbn [rbind]. rewrite Hi. apply decode_upto_each, Hn.
  - intros mt' y n Hn. destruct (rep_iter mt sc m' (cs ++ [new]) f) as (it & Hit & Hi); try assumption.
    unfold m_iterate. rewrite Hit. cbn [rbind]. rewrite Hi. unfold read_repeated. rewrite map_app, occ_app, map_app.
    cbn [map occ crecord]. rewrite Hnf, Z.eqb_refl, Hnw. cbn [map bytes_of].
    apply decode_upto_each. rewrite app_length. exact Hn.
Qed.

(** ** Defaults and presence *)
Lemma defaults_presence mt sc os m :
  schema_ok mt sc -> history mt sc os m -> ops_size os < 2 ^ 63 ->
  (forall f T, sc f = Some (KSingle T) -> spec_run sc os f = [] -> m_get T m f = Ok (default_of T)) /\
  (forall f, sc f = Some (KSingle PBytes) ->
     (m_get PBytes m f = Ok (VBytes None) <-> spec_run sc os f = []) /\
     (forall mt' x, spec_run sc os f = [] -> m_Message mt' m f x = Ok (false, None, x)) /\
     (forall b, spec_run sc os f = [WBytes b] -> m_get PBytes m f = Ok (VBytes (Some b)))) /\
  (forall f mt' x n, sc f = Some KRepeated -> spec_run sc os f = [] -> m_iterate (S n) mt' m f x = Ok []).
Proof.
  intros Hsc Hh Hsz. destruct (hist_rep mt sc os m) as (cs & Hm & Hs & Hl); try assumption.
  assert (Hl' : zlen (mbuf m) < 2 ^ 63) by lia.
  assert (Hget : forall f T, sc f = Some (KSingle T) -> m_get T m f = Ok (read_single T (spec_run sc os f))).
  { intros f T Hf. rewrite (rep_get mt sc m cs) by assumption. rewrite Hs, (read_single_view _ _ _ _ Hf). reflexivity. }
  split_and!.
  - intros f T Hf H0. rewrite (Hget f T Hf), H0. reflexivity.
  - intros f Hf. split_and!.
    + split; [|intros H0; rewrite (Hget f _ Hf), H0; reflexivity].
      rewrite (Hget f _ Hf). unfold read_single. destruct (last (spec_run sc os f)) as [w|] eqn:El.
      * apply last_Some in El as (l & El).
        assert (Hb : wire_type w = 2).
        { assert (Hin : exists c, c ∈ cs /\ cf c = f /\ cw c = w).
          { assert (Hlast : last (occ f (map crecord cs)) = Some w).
            { rewrite <- last_last_only. specialize (Hs f). unfold view in Hs. rewrite Hf in Hs. rewrite <- Hs, El. apply last_snoc. }
            clear -Hlast. induction cs as [|c cs IH]; [discriminate|]. cbn [map occ crecord] in Hlast.
            destruct (Z.eqb_spec (cf c) f) as [Hc|Hc].
            - destruct (occ f (map crecord cs)) as [|w' l'] eqn:E.
              + injection Hlast as <-. exists c. split_and!; auto. left.
              + destruct IH as (c' & Hin & H1 & H2); [exact Hlast|]. exists c'. split_and!; auto. right. exact Hin.
            - destruct IH as (c' & Hin & H1 & H2); [exact Hlast|]. exists c'. split_and!; auto. right. exact Hin. }
          destruct Hin as (c & Hin & Hcf & <-). pose proof (rep_typed _ _ _ _ Hm) as Hty. rewrite Forall_forall in Hty.
          destruct (Hty c Hin) as [_ Hwt]. unfold well_typed in Hwt. cbn [crecord fst snd] in Hwt. rewrite Hcf, Hf in Hwt. apply Hwt. }
        destruct w; try discriminate.
      * apply last_None in El. auto.
    + intros mt' x H0. rewrite m_Message_get, (Hget f _ Hf), H0. reflexivity.
    + intros b Hb. rewrite (Hget f _ Hf), Hb. reflexivity.
  - intros f mt' x n Hf H0. destruct (rep_iter mt sc m cs f) as (it & Hit & Hi); try assumption.
    unfold m_iterate. rewrite Hit. cbn [rbind]. rewrite Hi. specialize (Hs f). unfold view in Hs. rewrite Hf, H0 in Hs.
    rewrite <- Hs. reflexivity.
Qed.
