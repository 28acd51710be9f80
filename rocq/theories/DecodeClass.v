(** * What Decode does on every buffer that is not malformed *)
From Verif Require Import Runtime Spec VarintFacts OffsetsFacts RecFacts DecodeFacts.
From Coq Require Import ZifyBool.

Lemma varint_cont_app v vb r : is_varint v vb -> ~ Forall (fun b => 128 <= b < 256) (vb ++ r).
Proof.
  intros (init & lst & -> & _ & Hl & _) H. apply Forall_app in H as [H _].
  apply Forall_app in H as [_ H]. inversion H as [|? ? Hx]; subst. lia.
Qed.

(** The encoding of a record determines where it ends. *)
Lemma cbytes_det c c' r r' :
  cvalid c -> cvalid c' -> zlen (cbytes c ++ r) < 2 ^ 63 ->
  cbytes c ++ r = cbytes c' ++ r' -> ct c = ct c' /\ cp c = cp c' /\ r = r'.
Proof.
  intros [Ht Hp] [Ht' Hp'] Hlen He. unfold cbytes in *. rewrite <- !app_assoc in *.
  pose proof (uvarint_spec _ _ (cp c ++ r) (proj2 Ht)) as Hu.
  pose proof (uvarint_spec _ _ (cp c' ++ r') (proj2 Ht')) as Hu'.
  rewrite <- He, Hu in Hu'. injection Hu' as Htag Htl.
  destruct (tag_field _ _ Ht) as (_ & _ & Hw). destruct (tag_field _ _ Ht') as (_ & _ & Hw').
  cbn [crecord fst snd] in *. rewrite Htag, Hw' in Hw.
  apply app_inj_1 in He as [Hct He]; [|unfold zlen in *; lia].
  assert (Hlen' : zlen (cp c' ++ r') < 2 ^ 63).
  { rewrite <- He. rewrite zlen_app in Hlen. pose proof (zlen_nonneg (ct c)). lia. }
  rewrite !zlen_app in Hlen. rewrite zlen_app in Hlen'.
  pose proof (zlen_nonneg (ct c)). pose proof (zlen_nonneg r). pose proof (zlen_nonneg r').
  pose proof (fieldDataSize_ok _ _ r Hp ltac:(lia)) as Hs.
  pose proof (fieldDataSize_ok _ _ r' Hp' ltac:(lia)) as Hs'.
  rewrite <- Hw, He, Hs' in Hs. injection Hs as Hpl.
  apply app_inj_1 in He as [Hcp He]; [|unfold zlen in *; lia].
  auto.
Qed.

Lemma wire_first rs bs :
  wire rs bs -> bs <> [] ->
  exists c rest rs', cvalid c /\ bs = cbytes c ++ rest /\ wire rs' rest /\ rs = crecord c :: rs'.
Proof.
  intros Hw Hne. destruct Hw as [|r rs bs1 bs2 (tb & pb & -> & Ht & Hp) Hw]; [congruence|].
  exists (mkCrec r.1 r.2 tb pb), bs2, rs. destruct r as [f w]. split_and!; auto.
  split; assumption.
Qed.

Lemma fixed_exists n r :
  Forall is_byte r -> (n <= length r)%nat -> exists pb r', r = pb ++ r' /\ is_fixed n (base256 pb) pb.
Proof.
  intros Hb Hn. exists (take n r), (drop n r). rewrite take_drop. split; [reflexivity|].
  split; [rewrite take_length; lia|]. split; [apply Forall_take, Hb|reflexivity].
Qed.

(** Reading a payload of a supported wire type. *)
Lemma payload_cases total wt r :
  Forall is_byte r -> wt = 0 \/ wt = 1 \/ wt = 2 \/ wt = 5 ->
  zlen r <= total < 2 ^ 63 ->
  ~ (wt = 0 /\ overlong r) ->
  ~ (wt = 2 /\ (overlong r \/
       exists len lb r', r = lb ++ r' /\ is_varint len lb /\ 2 ^ 63 <= total + len)) ->
  (exists w pb r', wire_type w = wt /\ r = pb ++ r' /\ payload_enc w pb) \/
  ((forall w pb r', wire_type w = wt -> r = pb ++ r' -> ~ payload_enc w pb) /\
   (fieldDataSize wt r = Ok 0 \/
    exists s, fieldDataSize wt r = Ok s /\ zlen r < s /\ (s <= 8 \/ s <= zlen r + 2 ^ 63 - 1 - total))).
Proof.
  intros Hb Hwt Htot H0 H2. unfold fieldDataSize, WireVarint, WireFixed32, WireFixed64, WireBytes.
  pose proof (zlen_nonneg r) as Hnn.
  destruct Hwt as [->|[->|[->| ->]]].
  - destruct (uvarint_cases r Hb) as [[Hu Hc]|[(v & vb & r' & -> & Hv & Hu)|[Ho _]]].
    + right. split; [|left; rewrite Hu; reflexivity].
      intros w pb r' Hw -> Hp. destruct w; try discriminate. cbn [payload_enc] in Hp.
      eapply varint_cont_app; eassumption.
    + left. exists (WVarint v), vb, r'. auto.
    + exfalso. auto.
  - destruct (decide (8 <= length r)%nat) as [Hge|Hlt].
    + left. destruct (fixed_exists 8 r Hb Hge) as (pb & r' & -> & Hf). exists (WFixed64 (base256 pb)), pb, r'. auto.
    + right. split.
      * intros w pb r' Hw -> Hp. destruct w; try discriminate. cbn [payload_enc] in Hp.
        destruct Hp as [Hp _]. rewrite app_length in Hlt. lia.
      * right. exists 8. split; [reflexivity|]. unfold zlen in *. pows. lia.
  - destruct (uvarint_cases r Hb) as [[Hu Hc]|[(v & vb & r' & -> & Hv & Hu)|[Ho _]]].
    + right. split; [|left; rewrite Hu; reflexivity].
      intros w pb r' Hw -> Hp. destruct w; try discriminate. cbn [payload_enc] in Hp.
      destruct Hp as (lb & -> & Hv & _). rewrite <- app_assoc in Hc. eapply varint_cont_app; eassumption.
    + assert (Hlt : total + v < 2 ^ 63).
      { destruct (Z.lt_ge_cases (total + v) (2 ^ 63)); [assumption|]. exfalso. apply H2. split; [reflexivity|].
        right. exists v, vb, r'. auto. }
      pose proof (is_varint_nonneg _ _ Hv) as Hvn. pose proof (is_varint_len _ _ Hv) as Hvl.
      apply Forall_app in Hb as [_ Hb]. rewrite zlen_app in *.
      destruct (Z.le_gt_cases v (zlen r')) as [Hle|Hgt].
      * left. exists (WBytes (take (Z.to_nat v) r')), (vb ++ take (Z.to_nat v) r'), (drop (Z.to_nat v) r').
        split_and!; [reflexivity|rewrite <- app_assoc, take_drop; reflexivity|].
        exists vb. split; [reflexivity|]. split; [|apply Forall_take, Hb].
        rewrite take_length. replace (Z.of_nat _) with v by (unfold zlen in *; lia). exact Hv.
      * right. split.
        -- intros w pb r'' Hw He Hp. destruct w; try discriminate. cbn [payload_enc] in Hp.
           destruct Hp as (lb & -> & Hv' & _). rewrite <- app_assoc in He.
           pose proof (uvarint_spec _ _ (bs ++ r'') Hv') as Hu'. rewrite <- He, Hu in Hu'.
           injection Hu' as Hv1 Hl1. apply app_inj_1 in He as [_ He]; [|unfold zlen in *; lia].
           subst r'. rewrite zlen_app in Hgt. pose proof (zlen_nonneg r''). unfold zlen in *. lia.
        -- right. exists (zlen vb + v). cbn [Z.eqb]. rewrite Hu. pose proof (zlen_nonneg r').
           replace (zlen vb =? 0) with false by lia.
           rewrite !i64_small by (rewrite ?i64_small; lia). split; [reflexivity|]. lia.
    + exfalso. auto.
  - destruct (decide (4 <= length r)%nat) as [Hge|Hlt].
    + left. destruct (fixed_exists 4 r Hb Hge) as (pb & r' & -> & Hf). exists (WFixed32 (base256 pb)), pb, r'. auto.
    + right. split.
      * intros w pb r' Hw -> Hp. destruct w; try discriminate. cbn [payload_enc] in Hp.
        destruct Hp as [Hp _]. rewrite app_length in Hlt. lia.
      * right. exists 4. split; [reflexivity|]. unfold zlen in *. pows. lia.
Qed.

Lemma decode_class reps rest : forall pre o fuel,
  Forall cvalid pre -> Forall is_byte rest -> owf o ->
  zlen (flat pre ++ rest) < 2 ^ 62 -> ~ malformed (flat pre ++ rest) ->
  (length rest < fuel)%nat ->
  (exists o' rs, decode_loop fuel (flat pre ++ rest) reps (zlen (flat pre)) o = Ok (None, o') /\
     wire rs rest /\ Forall (fun r => r.1 < zlen (oa o)) rs) \/
  (exists o', decode_loop fuel (flat pre ++ rest) reps (zlen (flat pre)) o = Ok (Some ErrUnexpectedEOF, o') /\
     forall rs, ~ wire rs rest) \/
  (decode_loop fuel (flat pre ++ rest) reps (zlen (flat pre)) o = Panic /\
     unsupported (zlen (oa o)) rest).
Proof.
  remember (length rest) as n eqn:Hn. revert rest Hn.
  induction (lt_wf n) as [n _ IH]. intros rest Hn pre o fuel Hpre Hb Hwf Hlen Hnm Hfuel.
  destruct fuel as [|fuel]; [lia|].
  destruct (decide (rest = [])) as [->|Hne].
  { left. exists o, []. cbn [decode_loop]. rewrite app_nil_r, Z.eqb_refl. split_and!; constructor. }
  pose proof (zlen_nonneg (flat pre)) as Hp0.
  assert (Hr0 : 0 < zlen rest) by (destruct rest; [congruence|rewrite zlen_cons; pose proof (zlen_nonneg rest); lia]).
  assert (Hlen' : zlen (flat pre) + zlen rest < 2 ^ 62) by (rewrite zlen_app in Hlen; exact Hlen).
  change (2 ^ 62) with 4611686018427387904 in Hlen'.
  assert (Hstart : forall bs, rest = bs -> ~ starts_malformed (zlen (flat pre ++ rest)) bs).
  { intros bs <- Hs. apply Hnm. exists (map crecord pre), (flat pre), rest. split_and!; [reflexivity| |exact Hs].
    apply wire_concrete. eauto. }
  assert (Hloop : forall R, R = decode_loop (S fuel) (flat pre ++ rest) reps (zlen (flat pre)) o -> 
     R = let '(tag, size) := uvarint rest in
         if size =? 0 then Ok (Some ErrUnexpectedEOF, o) else
         let idx := i64 (zlen (flat pre) + size) in
         if zlen (flat pre ++ rest) <=? idx then Ok (Some ErrUnexpectedEOF, o) else
         let* o := dec_upd reps o (i64 (Z.shiftr tag 3)) (u64 idx) in
         let* b := slice_from (flat pre ++ rest) idx in
         let* s := fieldDataSize (Z.land tag 7) b in
         if s =? 0 then Ok (Some ErrUnexpectedEOF, o)
         else decode_loop fuel (flat pre ++ rest) reps (i64 (idx + s)) o).
  { intros R ->. cbn [decode_loop].
    replace (zlen (flat pre) =? zlen (flat pre ++ rest)) with false by (rewrite zlen_app; lia).
    replace (zlen (flat pre ++ rest) <? zlen (flat pre)) with false by (rewrite zlen_app; lia).
    rewrite slice_from_app. cbn [rbind]. reflexivity. }
  destruct (uvarint_cases rest Hb) as [[Hu Hc]|[(tag & tb & r & Hrest & Hv & Hu)|[Ho _]]].
  - (* tag cut *)
    right. left. exists o. split.
    + rewrite (Hloop _ eq_refl), Hu. reflexivity.
    + intros rs Hw. destruct (wire_first _ _ Hw Hne) as (c & r & rs' & [Ht _] & -> & _).
      unfold cbytes in Hc. rewrite <- app_assoc in Hc. eapply varint_cont_app; [apply Ht|eassumption].
  - pose proof (is_varint_len _ _ Hv) as Htl. pose proof (is_varint_nonneg _ _ Hv) as Htv.
    assert (Hrl : zlen rest = zlen tb + zlen r) by (rewrite Hrest; apply zlen_app).
    pose proof (zlen_nonneg r) as Hrn.
    destruct (decide (r = [])) as [->|Hrne].
    { right. left. exists o. split.
      - rewrite (Hloop _ eq_refl), Hu. replace (zlen tb =? 0) with false by lia. cbn zeta.
        rewrite i64_small by (pows; lia). rewrite zlen_nil in Hrl.
        replace (zlen (flat pre ++ rest) <=? zlen (flat pre) + zlen tb) with true by (rewrite zlen_app; lia).
        reflexivity.
      - intros rs Hw. destruct (wire_first _ _ Hw Hne) as (c & r & rs' & [Ht Hp] & He & _).
        unfold cbytes in He. rewrite <- app_assoc in He.
        pose proof (uvarint_spec _ _ (cp c ++ r) (proj2 Ht)) as Hu'. rewrite <- He, Hu in Hu'.
        injection Hu' as _ Hl. rewrite He, !zlen_app in Hrl. rewrite zlen_nil in Hrl.
        apply payload_len_pos in Hp. pose proof (zlen_nonneg r). lia. }
    assert (Hr1 : 0 < zlen r) by (destruct r; [congruence|rewrite zlen_cons; pose proof (zlen_nonneg r); lia]).
    assert (Htag8 : i64 (Z.shiftr tag 3) = tag / 8).
    { rewrite shiftr_3. apply i64_small. pows. Z.div_mod_to_equations. lia. }
    assert (Hloop2 : decode_loop (S fuel) (flat pre ++ rest) reps (zlen (flat pre)) o =
         let* o := dec_upd reps o (tag / 8) (zlen (flat pre) + zlen tb) in
         let* s := fieldDataSize (tag mod 8) r in
         if s =? 0 then Ok (Some ErrUnexpectedEOF, o)
         else decode_loop fuel (flat pre ++ rest) reps (i64 (zlen (flat pre) + zlen tb + s)) o).
    { rewrite (Hloop _ eq_refl), Hu. replace (zlen tb =? 0) with false by lia. cbn zeta.
      rewrite (i64_small (zlen (flat pre) + zlen tb)) by (pows; lia).
      replace (zlen (flat pre ++ rest) <=? zlen (flat pre) + zlen tb) with false by (rewrite zlen_app; lia).
      rewrite u64_small by (pows; lia). rewrite Htag8, land_7.
      destruct (dec_upd reps o (tag / 8) (zlen (flat pre) + zlen tb)) as [o'| | |]; cbn [rbind]; try reflexivity.
      replace (flat pre ++ rest) with ((flat pre ++ tb) ++ r) at 1 by (rewrite Hrest, app_assoc; reflexivity).
      rewrite slice_from_app' by (rewrite zlen_app; reflexivity). reflexivity. }
    destruct (decide (tag / 8 < zlen (oa o))) as [Hin|Hout]; cycle 1.
    { right. right. split.
      - rewrite Hloop2. unfold dec_upd.
        rewrite offsets_get_out, offsets_set_out by (unfold in_range; lia).
        destruct (is_repeated _ _); reflexivity.
      - exists [], [], tag, tb, r. split_and!; auto; [constructor|]. lia. }
    destruct (dec_upd_ok reps o (tag / 8) (zlen (flat pre) + zlen tb) Hwf) as (o1 & Hd & Hwf1 & Hl1 & _).
    { unfold in_range. Z.div_mod_to_equations; lia. }
    { pows; lia. }
    rewrite Hd in Hloop2. cbn [rbind] in Hloop2.
    destruct (decide (tag mod 8 = 0 \/ tag mod 8 = 1 \/ tag mod 8 = 2 \/ tag mod 8 = 5)) as [Hwt|Hwt]; cycle 1.
    { right. right. split.
      - rewrite Hloop2. unfold fieldDataSize, WireVarint, WireFixed32, WireFixed64, WireBytes.
        replace (tag mod 8 =? 0) with false by lia. replace (tag mod 8 =? 5) with false by lia.
        replace (tag mod 8 =? 1) with false by lia. replace (tag mod 8 =? 2) with false by lia. reflexivity.
      - exists [], [], tag, tb, r. split_and!; auto; constructor. }
    assert (Hbr : Forall is_byte r) by (rewrite Hrest in Hb; apply Forall_app in Hb; apply Hb).
    destruct (payload_cases (zlen (flat pre ++ rest)) (tag mod 8) r Hbr Hwt) as [(w & pb & r' & Hw & Hr & Hp)|[Hnp Hsz]].
    + rewrite zlen_app. pows. lia.
    + intros [Hz Ho]. apply (Hstart _ Hrest). right. exists tag, tb, r. split_and!; auto.
    + intros [Hz Ho]. apply (Hstart _ Hrest). right. exists tag, tb, r. split_and!; auto.
    + (* complete record *)
      set (c := mkCrec (tag / 8) w tb pb).
      assert (Hcv : cvalid c).
      { split; [split|exact Hp]; cbn [c crecord cf cw ct fst snd].
        - apply Z.div_pos; lia.
        - rewrite Hw. rewrite <- Z.div_mod by lia. exact Hv. }
      assert (Hrest' : rest = cbytes c ++ r') by (subst rest r; unfold cbytes; cbn [c ct cp]; rewrite app_assoc; reflexivity).
      assert (Hpl := payload_len_pos _ _ Hp).
      assert (Hlr : (length r' < n)%nat).
      { rewrite Hn, Hrest'. unfold cbytes. cbn [c ct cp]. rewrite !app_length. unfold zlen in *. lia. }
      assert (Hflat : flat pre ++ rest = flat (pre ++ [c]) ++ r').
      { rewrite flat_app. cbn [flat]. rewrite app_nil_r, <- app_assoc, Hrest'. reflexivity. }
      assert (Hrl' : zlen r = zlen pb + zlen r') by (subst r; apply zlen_app). pose proof (zlen_nonneg r').
      assert (Hstep : decode_loop (S fuel) (flat pre ++ rest) reps (zlen (flat pre)) o =
                      decode_loop fuel (flat (pre ++ [c]) ++ r') reps (zlen (flat (pre ++ [c]))) o1).
      { rewrite Hloop2, Hr, <- Hw. rewrite fieldDataSize_ok by (auto; pows; lia). cbn [rbind].
        replace (zlen pb =? 0) with false by lia. rewrite i64_small by (pows; lia). rewrite Hflat. f_equal.
        rewrite flat_app, zlen_app. cbn [flat]. rewrite app_nil_r. unfold cbytes. rewrite zlen_app. subst c. cbn [ct cp]. lia. }
      rewrite Hstep.
      destruct (IH _ Hlr r' eq_refl (pre ++ [c]) o1 fuel) as [(o' & rs & Hd' & Hw' & Hf')|[(o' & Hd' & Hnw)|[Hd' Hpr]]].
      * apply Forall_app. split; [exact Hpre|]. apply Forall_singleton, Hcv.
      * rewrite Hr in Hbr. apply Forall_app in Hbr. apply Hbr.
      * exact Hwf1.
      * rewrite <- Hflat. exact Hlen.
      * rewrite <- Hflat. exact Hnm.
      * lia.
      * left. exists o', (crecord c :: rs). split_and!; [exact Hd'| |].
        -- rewrite Hrest'. constructor; [|exact Hw']. exists tb, pb. split_and!; [reflexivity|apply Hcv|exact Hp].
        -- constructor; [cbn; lia|]. rewrite Hl1 in Hf'. exact Hf'.
      * right. left. exists o'. split; [exact Hd'|]. intros rs Hw'.
        destruct (wire_first _ _ Hw' Hne) as (c' & r'' & rs' & Hcv' & He & Hw'' & _).
        rewrite Hrest' in He. apply cbytes_det in He as (_ & _ & <-); [|assumption..|].
        -- eapply Hnw, Hw''.
        -- rewrite <- Hrest'. pows. lia.
      * right. right. split; [exact Hd'|]. rewrite Hl1 in Hpr.
        destruct Hpr as (rs & pre' & tag' & tb' & r'' & -> & Hw' & Hrest'').
        exists (crecord c :: rs), (cbytes c ++ pre'), tag', tb', r''. split_and!.
        -- rewrite Hrest', <- !app_assoc. reflexivity.
        -- constructor; [|exact Hw']. exists tb, pb. split_and!; [reflexivity|apply Hcv|exact Hp].
        -- apply Hrest''.
        -- apply Hrest''.
        -- apply Hrest''.
    + (* cut payload *)
      right. left.
      assert (Hnw : forall rs, ~ wire rs rest).
      { intros rs Hw'. destruct (wire_first _ _ Hw' Hne) as (c' & r'' & rs' & [Ht' Hp'] & He & _).
        unfold cbytes in He. rewrite <- app_assoc in He.
        pose proof (uvarint_spec _ _ (cp c' ++ r'') (proj2 Ht')) as Hu'. rewrite <- He, Hu in Hu'.
        injection Hu' as Htag Hl. rewrite Hrest in He. apply app_inj_1 in He as [_ He]; [|unfold zlen in *; lia].
        destruct (tag_field _ _ Ht') as (_ & _ & Hwt'). cbn [crecord fst snd] in *. rewrite <- Htag, land_7 in Hwt'.
        eapply Hnp; [symmetry; exact Hwt'|exact He|exact Hp']. }
      destruct Hsz as [Hs|(s & Hs & Hgt & Hsm)].
      * exists o1. split; [|exact Hnw]. rewrite Hloop2, Hs. reflexivity.
      * exists o1. split; [|exact Hnw]. rewrite Hloop2, Hs. cbn [rbind].
        replace (s =? 0) with false by lia.
        rewrite zlen_app in Hsm.
        destruct fuel as [|fuel]; [exfalso; unfold zlen in Hr0, Hrl, Htl, Hr1; lia|].
        assert (Hi : i64 (zlen (flat pre) + zlen tb + s) = zlen (flat pre) + zlen tb + s).
        { apply i64_small. pows. lia. }
        rewrite Hi. cbn [decode_loop].
        replace (zlen (flat pre) + zlen tb + s =? zlen (flat pre ++ rest)) with false by (rewrite zlen_app; lia).
        replace (zlen (flat pre ++ rest) <? zlen (flat pre) + zlen tb + s) with true by (rewrite zlen_app; lia).
        reflexivity.
  - exfalso. apply (Hstart _ eq_refl). left. exact Ho.
Qed.
