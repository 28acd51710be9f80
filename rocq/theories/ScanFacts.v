(** * Decode is the reader of SpecScan.v *)
From Verif Require Import Api Spec SpecScan GenApi VarintFacts OffsetsFacts RecFacts DecodeFacts GetFacts Fuel Core Core5.
From Coq Require Import ZifyBool.

Lemma signed64_i64 z : signed64 z = i64 z.
Proof. reflexivity. Qed.

Lemma i64_add a b : i64 (a + i64 b) = i64 (a + b).
Proof.
  unfold i64. f_equal. set (m := 18446744073709551616). set (h := 9223372036854775808).
  replace (a + ((b + h) mod m - h) + h) with (a + (b + h) mod m) by lia.
  rewrite Zplus_mod_idemp_r. f_equal. lia.
Qed.

Lemma reads_uvarint b v n : Forall is_byte b -> reads_varint b v n <-> uvarint b = (v, n) /\ n <> 0.
Proof.
  intros Hb. split.
  - intros [v' vb r Hv|init lst r H1 H2 H3].
    + pose proof (uvarint_spec _ _ r Hv) as Hu. pose proof (is_varint_len _ _ Hv) as Hl.
      unfold zlen in *. split; [exact Hu|lia].
    + destruct (uvarint (init ++ lst :: r)) as [v' n'] eqn:Hu. unfold uvarint in Hu.
      assert (G : forall i x s, 0 <= i -> (9 < i + Z.of_nat (length init) \/ i + Z.of_nat (length init) = 9 /\ 1 < lst) ->
        uvarint_loop (init ++ lst :: r) i x s = (0, - (i + Z.of_nat (length init) + 1))).
      { clear H3 Hb Hu. induction init as [|c init IH]; intros i x s Hi Hc; cbn [app uvarint_loop length] in *.
        - replace (lst <? 128) with true by lia.
          replace ((9 <? i) || ((i =? 9) && (1 <? lst))) with true by lia. f_equal. lia.
        - apply Forall_cons in H1 as [Hb H1]. replace (c <? 128) with false by lia. rewrite IH by (try assumption; lia). f_equal. lia. }
      rewrite (G 0 0 0) in Hu by lia. injection Hu as <- <-. split; [reflexivity|lia].
  - intros [Hu Hn]. destruct (uvarint_cases b Hb) as [[Hu' _]|[(v' & vb & r & -> & Hv & Hu')|(Ho & _)]].
    + rewrite Hu in Hu'. injection Hu' as -> ->. contradiction.
    + rewrite Hu in Hu'. injection Hu' as -> ->. constructor. exact Hv.
    + unfold uvarint in Hu. pose proof Hu as Hu2. apply uvarint_loop_inv in Hu; [|assumption|lia].
      destruct Ho as (init & lst & r & E & H1 & H2 & H3).
      assert (G : forall i x s, 0 <= i -> (9 < i + Z.of_nat (length init) \/ i + Z.of_nat (length init) = 9 /\ 1 < lst) ->
        uvarint_loop (init ++ lst :: r) i x s = (0, - (i + Z.of_nat (length init) + 1))).
      { clear -H1 H2. induction init as [|c init IH]; intros i x s Hi Hc; cbn [app uvarint_loop length] in *.
        - replace (lst <? 128) with true by lia.
          replace ((9 <? i) || ((i =? 9) && (1 <? lst))) with true by lia. f_equal. lia.
        - apply Forall_cons in H1 as [Hb H1]. replace (c <? 128) with false by lia. rewrite IH by (try assumption; lia). f_equal. lia. }
      rewrite E, (G 0 0 0) in Hu2 by lia. injection Hu2 as <- <-. rewrite E. constructor; assumption.
Qed.

Lemma cut_uvarint b : Forall is_byte b -> cut_varint b <-> (uvarint b).2 = 0.
Proof.
  intros Hb. unfold cut_varint. destruct (uvarint_cases b Hb) as [[Hu Hc]|[(v & vb & r & -> & Hv & Hu)|(Ho & _ & Hn & _)]].
  - rewrite Hu. tauto.
  - rewrite Hu. cbn. pose proof (is_varint_len _ _ Hv). split; [|lia]. intros Hc.
    destruct Hv as (init & lst & -> & _ & Hl & _). apply Forall_app in Hc as [Hc _]. apply Forall_app in Hc as [_ Hc].
    apply Forall_cons in Hc as [Hc _]. lia.
  - split; [|lia]. intros Hc. destruct Ho as (init & lst & r & -> & _ & Hl & _). apply Forall_app in Hc as [_ Hc].
    apply Forall_cons in Hc as [Hc _]. lia.
Qed.


Lemma reads_small b v n : Forall is_byte b -> reads_varint b v n -> 0 <= v < 2 ^ 64 /\ (1 <= n <= 10 \/ - zlen b <= n <= - 10 /\ v = 0).
Proof.
  intros Hb [v' vb r Hv|init lst r H1 H2 H3].
  - pose proof (is_varint_len _ _ Hv). pose proof (is_varint_nonneg _ _ Hv). destruct Hv as (? & ? & ? & ? & ? & ? & ? & Hlt).
    unfold zlen in *. lia.
  - unfold zlen. rewrite app_length. cbn [length]. pows. lia.
Qed.

Lemma at_bytes bs i : Forall is_byte bs -> Forall is_byte (at_pos bs i).
Proof. intros Hb. apply (Forall_drop _ _ _ Hb). Qed.

Lemma at_small (bs : list Z) i : zlen (at_pos bs i) <= zlen bs.
Proof. unfold zlen. rewrite skipn_length. lia. Qed.

(** [fieldDataSize] on a byte string. *)
Lemma size_moves t b s :
  Forall is_byte b -> zlen b < 2 ^ 63 -> moves t b s -> fieldDataSize t b = Ok (i64 s).
Proof.
  intros Hb Hl Hm. unfold fieldDataSize, WireVarint, WireFixed32, WireFixed64, WireBytes.
  destruct Hm as [b v n Hr|b|b len n Hr|b]; cbn [Z.eqb Pos.eqb]; try reflexivity;
    pose proof (reads_small _ _ _ Hb Hr) as Hs; apply reads_uvarint in Hr as [Hu Hn]; try exact Hb; rewrite Hu.
  - cbn [snd]. f_equal. symmetry. apply i64_small. revert Hl Hs. pows. lia.
  - replace (n =? 0) with false by lia. f_equal. apply i64_add.
Qed.

Lemma size_cut t b : Forall is_byte b -> t = 0 \/ t = 2 -> cut_varint b -> fieldDataSize t b = Ok 0.
Proof.
  intros Hb Ht Hc. apply cut_uvarint in Hc; [|exact Hb]. unfold fieldDataSize, WireVarint, WireFixed32, WireFixed64, WireBytes.
  destruct Ht as [-> | ->]; cbn [Z.eqb Pos.eqb]; destruct (uvarint b) as [v n]; cbn in *; subst; reflexivity.
Qed.

Lemma size_bad t b : t <> 0 -> t <> 1 -> t <> 2 -> t <> 5 -> fieldDataSize t b = Panic.
Proof.
  intros. unfold fieldDataSize, WireVarint, WireFixed32, WireFixed64, WireBytes.
  replace (t =? 0) with false by lia. replace (t =? 5) with false by lia.
  replace (t =? 1) with false by lia. replace (t =? 2) with false by lia. reflexivity.
Qed.

Lemma move_cases t b : Forall is_byte b ->
  (exists s, moves t b s) \/ ((t = 0 \/ t = 2) /\ cut_varint b) \/ (t <> 0 /\ t <> 1 /\ t <> 2 /\ t <> 5).
Proof.
  intros Hb.
  assert (Hr : cut_varint b \/ exists v n, reads_varint b v n).
  { destruct (uvarint b) as [v k] eqn:Hu. destruct (decide (k = 0)) as [->|Hn].
    - left. apply cut_uvarint; [exact Hb|]. rewrite Hu. reflexivity.
    - right. exists v, k. apply reads_uvarint; auto. }
  destruct (decide (t = 0)) as [->|Ht0]. { destruct Hr as [Hr|(v & n & Hr)]; [auto|left; exists n; econstructor; exact Hr]. }
  destruct (decide (t = 2)) as [->|Ht2]. { destruct Hr as [Hr|(v & n & Hr)]; [auto|left; exists (n + v); econstructor; exact Hr]. }
  destruct (decide (t = 1)) as [->|Ht1]. { left. exists 8. constructor. }
  destruct (decide (t = 5)) as [->|Ht5]. { left. exists 4. constructor. }
  right. right. auto.
Qed.

(** Where a reader is, one of four things happens. *)
Lemma pos_cases n bs i : Forall is_byte bs ->
  i = Z.of_nat (length bs) \/ (exists l, ends_early n bs i l) \/ fails n bs i \/ (exists f p j, hop bs i f p j /\ f < n).
Proof.
  intros Hb. destruct (decide (i = Z.of_nat (length bs))) as [|Hne]; [auto|]. right.
  destruct (Z.lt_ge_cases i 0) as [Hneg|H0]. { right. left. apply fails_before, Hneg. }
  destruct (Z.lt_ge_cases (Z.of_nat (length bs)) i) as [Hbig|Hi]. { left. exists []. apply early_beyond, Hbig. }
  pose proof (at_bytes bs i Hb) as Hbi.
  destruct (uvarint (at_pos bs i)) as [tag k] eqn:Hu. destruct (decide (k = 0)) as [->|Hk].
  { left. exists []. apply early_tag; [lia|]. apply cut_uvarint; [exact Hbi|]. rewrite Hu. reflexivity. }
  assert (Hr : reads_varint (at_pos bs i) tag k) by (apply reads_uvarint; auto).
  destruct (Z.le_gt_cases (Z.of_nat (length bs)) (i + k)) as [Hge|Hlt]. { left. exists []. eapply early_behind; [lia|exact Hr|exact Hge]. }
  assert (Ht : tag_at bs i tag (i + k)). { split; [lia|]. exists k. auto. }
  destruct (Z.lt_ge_cases (i + k) 0) as [Hp|Hp]. { right. left. eapply fails_tag_before; eassumption. }
  destruct (Z.le_gt_cases n (tag / 8)) as [Hf|Hf]. { right. left. eapply fails_field; eassumption. }
  destruct (move_cases (tag mod 8) (at_pos bs (i + k)) (at_bytes _ _ Hb)) as [(s & Hm)|[[Ht2 Hc]|(H1 & H2 & H3 & H4)]].
  - destruct (decide (signed64 s = 0)) as [Hs|Hs].
    + left. eexists. eapply early_stuck; eassumption.
    + right. right. exists (tag / 8), (i + k), (signed64 (i + k + s)). split; [|exact Hf]. exists tag, s. split_and!; auto; lia.
  - left. eexists. eapply early_data; eassumption.
  - right. left. eapply fails_type; eassumption.
Qed.

(** ** One iteration *)
Section Step.
Context (reps bs : list Z).
Hypothesis (Hb : Forall is_byte bs) (Hl : zlen bs < 2 ^ 62).

Lemma sl_at i : 0 <= i <= zlen bs -> slice_from bs i = Ok (at_pos bs i).
Proof. intros Hi. unfold slice_from. replace ((0 <=? i) && (i <=? zlen bs)) with true by lia. reflexivity. Qed.

Lemma loop_tag fuel i o tag k :
  0 <= i < zlen bs -> reads_varint (at_pos bs i) tag k ->
  decode_loop (S fuel) bs reps i o =
    if zlen bs <=? i + k then Ok (Some ErrUnexpectedEOF, o) else
    let* o := dec_upd reps o (tag / 8) (u64 (i + k)) in
    let* b := slice_from bs (i + k) in
    let* s := fieldDataSize (tag mod 8) b in
    if s =? 0 then Ok (Some ErrUnexpectedEOF, o) else decode_loop fuel bs reps (i64 (i + k + s)) o.
Proof.
  intros Hi Hr. cbn [decode_loop]. replace (i =? zlen bs) with false by lia. replace (zlen bs <? i) with false by lia.
  rewrite sl_at by lia. cbn [rbind]. pose proof (reads_small _ _ _ (at_bytes _ _ Hb) Hr) as [Hv Hk].
  pose proof (at_small bs i) as Hal.
  apply reads_uvarint in Hr as [Hu Hn]; [|apply at_bytes, Hb]. rewrite Hu. replace (k =? 0) with false by lia. cbn zeta.
  pose proof Hl as Hl'. change (2 ^ 62) with 4611686018427387904 in Hl'. pows.
  assert (E1 : i64 (i + k) = i + k) by (apply i64_small; pows; lia). rewrite E1.
  assert (E2 : i64 (Z.shiftr tag 3) = tag / 8) by (rewrite shiftr_3; apply i64_small; pows; pose proof (Z.div_pos tag 8 ltac:(lia) ltac:(lia)); pose proof (Z.div_le_upper_bound tag 8 tag ltac:(lia) ltac:(lia)); pose proof (Z.div_lt_upper_bound tag 8 9223372036854775808 ltac:(lia) ltac:(lia)); lia). rewrite E2.
  rewrite land_7. reflexivity.
Qed.

(** [o'] is what [o] becomes when the records [l] are passed. *)
Definition track (o : offsets) (l : list (Z * Z)) (o' : offsets) : Prop :=
  owf o' /\ zlen (oa o') = zlen (oa o) /\
  forall f, 0 <= f < zlen (oa o) -> ofun o' f = recorded reps f l (ofun o f).

Lemma recorded_app f l1 : forall l2 c, recorded reps f (l1 ++ l2) c = recorded reps f l2 (recorded reps f l1 c).
Proof. induction l1 as [|[g p] l1 IH]; intros l2 c; cbn [app recorded]; [reflexivity|apply IH]. Qed.

Lemma track_trans o1 l1 o2 l2 o3 : track o1 l1 o2 -> track o2 l2 o3 -> track o1 (l1 ++ l2) o3.
Proof.
  intros (H1 & H2 & H3) (H4 & H5 & H6). split_and!; [exact H4|lia|]. intros f Hf. rewrite recorded_app, <- H3 by exact Hf.
  apply H6. lia.
Qed.

Lemma track_refl o : owf o -> track o [] o.
Proof. intros H. split_and!; auto. Qed.

Lemma is_repeated_spec f : is_repeated reps f = bool_decide (f ∈ reps).
Proof.
  unfold is_repeated. destruct (existsb _ _) eqn:E; symmetry.
  - apply bool_decide_eq_true. apply existsb_exists in E as (x & Hx & Hxe). apply Z.eqb_eq in Hxe. subst. apply elem_of_list_In, Hx.
  - apply bool_decide_eq_false. intros Hin. apply not_true_iff_false in E. apply E. apply existsb_exists. exists f.
    split; [apply elem_of_list_In, Hin|apply Z.eqb_refl].
Qed.

Lemma dec_upd_track o f p : owf o -> 0 <= f < zlen (oa o) -> 0 <= p < 2 ^ 64 ->
  exists o', dec_upd reps o f p = Ok o' /\ track o [(f, p)] o'.
Proof.
  intros Hwf Hf Hp. assert (Hr : in_range o f) by exact Hf.
  destruct (offsets_set_ok o f p Hwf Hr Hp) as (o' & Hs & Hwf' & Hlo & Ho & Hne & _).
  assert (Ho' : ofun o' f = if decide (p = 0) then None else Some p).
  { rewrite Ho. destruct (decide (p = 0)); [subst; reflexivity|]. replace (p =? 0) with false by lia. reflexivity. }
  unfold dec_upd. rewrite is_repeated_spec. pose proof (offsets_get_eq o f Hwf Hr) as Hg.
  destruct (decide (f ∈ reps)) as [Hin|Hin].
  - rewrite bool_decide_eq_true_2 by exact Hin. destruct (ofun o f) as [y|] eqn:Ey; rewrite Hg; cbn [rbind].
    + exists o. split; [reflexivity|]. split_and!; auto. intros g Hgr. cbn [recorded].
      destruct (decide (f = g)) as [<-|]; [|reflexivity]. rewrite decide_True by exact Hin. rewrite Ey. reflexivity.
    + exists o'. split; [exact Hs|]. split_and!; auto. intros g Hgr. cbn [recorded].
      destruct (decide (f = g)) as [<-|]; [|apply Hne; congruence]. rewrite decide_True by exact Hin. rewrite Ey. exact Ho'.
  - rewrite bool_decide_eq_false_2 by exact Hin. exists o'. split; [exact Hs|]. split_and!; auto. intros g Hgr. cbn [recorded].
    destruct (decide (f = g)) as [<-|]; [|apply Hne; congruence]. rewrite decide_False by exact Hin. exact Ho'.
Qed.

Lemma dec_upd_out o f p : ~ in_range o f -> dec_upd reps o f p = Panic.
Proof. intros H. destruct (dec_upd_total reps o f p) as [(? & _ & ? & _)|[? _]]; [contradiction|assumption]. Qed.

Lemma tag_field_nonneg i tag p : tag_at bs i tag p -> 0 <= tag / 8.
Proof.
  intros (_ & k & Hr & _). apply reads_small in Hr as [Hv _]; [|apply at_bytes, Hb]. apply Z.div_pos; lia.
Qed.

Lemma hop_step i f p j o : hop bs i f p j -> f < zlen (oa o) -> owf o ->
  exists o', track o [(f, p)] o' /\ forall fuel, decode_loop (S fuel) bs reps i o = decode_loop fuel bs reps j o'.
Proof.
  intros (tag & s & Ht & Hp & -> & Hm & Hs & ->) Hf Hwf. pose proof (tag_field_nonneg _ _ _ Ht) as Hf0.
  destruct Ht as (Hi & k & Hr & -> & Hlt). fold (zlen bs) in *.
  pose proof Hl as Hl'. change (2 ^ 62) with 4611686018427387904 in Hl'.
  destruct (dec_upd_track o (tag / 8) (i + k) Hwf ltac:(lia) ltac:(pows; lia)) as (o' & Hu & Htr).
  exists o'. split; [exact Htr|]. intros fuel. rewrite (loop_tag fuel i o tag k Hi Hr). replace (zlen bs <=? i + k) with false by lia.
  rewrite u64_small by (pows; lia). rewrite Hu. cbn [rbind]. rewrite sl_at by lia. cbn [rbind].
  rewrite (size_moves (tag mod 8) (at_pos bs (i + k)) s (at_bytes _ _ Hb)); [|pose proof (at_small bs (i + k)); pows; lia|exact Hm]. cbn [rbind].
  rewrite signed64_i64 in *. replace (i64 s =? 0) with false by lia. f_equal. apply i64_add.
Qed.

Lemma early_step i l o : ends_early (zlen (oa o)) bs i l -> owf o ->
  exists o', track o l o' /\ forall fuel, decode_loop (S fuel) bs reps i o = Ok (Some ErrUnexpectedEOF, o').
Proof.
  pose proof Hl as Hl'. change (2 ^ 62) with 4611686018427387904 in Hl'.
  intros Hc Hwf. destruct Hc as [Hc|Hi Hc|tag k Hi Hr Hc|tag p Ht Hp Hf Hty Hc|tag p s Ht Hp Hf Hm Hs]; fold (zlen bs) in *.
  - exists o. split; [apply track_refl, Hwf|]. intros fuel. cbn [decode_loop].
    replace (i =? zlen bs) with false by lia. replace (zlen bs <? i) with true by lia. reflexivity.
  - exists o. split; [apply track_refl, Hwf|]. intros fuel. cbn [decode_loop].
    replace (i =? zlen bs) with false by lia. replace (zlen bs <? i) with false by lia. rewrite sl_at by lia. cbn [rbind].
    apply cut_uvarint in Hc; [|apply at_bytes, Hb]. destruct (uvarint _) as [v n]. cbn in Hc. subst. reflexivity.
  - exists o. split; [apply track_refl, Hwf|]. intros fuel. rewrite (loop_tag fuel i o tag k Hi Hr).
    replace (zlen bs <=? i + k) with true by lia. reflexivity.
  - pose proof (tag_field_nonneg _ _ _ Ht) as Hf0. destruct Ht as (Hi & k & Hr & -> & Hlt). fold (zlen bs) in *.
    destruct (dec_upd_track o (tag / 8) (i + k) Hwf ltac:(lia) ltac:(pows; lia)) as (o' & Hu & Htr).
    exists o'. split; [exact Htr|]. intros fuel. rewrite (loop_tag fuel i o tag k Hi Hr). replace (zlen bs <=? i + k) with false by lia.
    rewrite u64_small by (pows; lia). rewrite Hu. cbn [rbind]. rewrite sl_at by lia. cbn [rbind].
    rewrite size_cut by (try assumption; apply at_bytes, Hb). reflexivity.
  - pose proof (tag_field_nonneg _ _ _ Ht) as Hf0. destruct Ht as (Hi & k & Hr & -> & Hlt). fold (zlen bs) in *.
    destruct (dec_upd_track o (tag / 8) (i + k) Hwf ltac:(lia) ltac:(pows; lia)) as (o' & Hu & Htr).
    exists o'. split; [exact Htr|]. intros fuel. rewrite (loop_tag fuel i o tag k Hi Hr). replace (zlen bs <=? i + k) with false by lia.
    rewrite u64_small by (pows; lia). rewrite Hu. cbn [rbind]. rewrite sl_at by lia. cbn [rbind].
    rewrite (size_moves (tag mod 8) (at_pos bs (i + k)) s (at_bytes _ _ Hb)); [|pose proof (at_small bs (i + k)); pows; lia|exact Hm]. cbn [rbind].
    rewrite signed64_i64 in Hs. rewrite Hs. reflexivity.
Qed.

Lemma fail_step i o fuel : fails (zlen (oa o)) bs i -> owf o -> decode_loop (S fuel) bs reps i o = Panic.
Proof.
  pose proof Hl as Hl'. change (2 ^ 62) with 4611686018427387904 in Hl'.
  intros Hc Hwf. destruct Hc as [Hc|tag p Ht Hp|tag p Ht Hf|tag p Ht H0 H1 H2 H5].
  - cbn [decode_loop]. pose proof (zlen_nonneg bs). replace (i =? zlen bs) with false by lia. replace (zlen bs <? i) with false by lia.
    unfold slice_from. replace ((0 <=? i) && (i <=? zlen bs)) with false by lia. reflexivity.
  - destruct Ht as (Hi & k & Hr & -> & Hlt). fold (zlen bs) in *. rewrite (loop_tag fuel i o tag k Hi Hr).
    replace (zlen bs <=? i + k) with false by lia. destruct (dec_upd_total reps o (tag / 8) (u64 (i + k))) as [(o' & -> & _)|[-> _]]; [|reflexivity].
    cbn [rbind]. unfold slice_from. replace ((0 <=? i + k) && (i + k <=? zlen bs)) with false by lia. reflexivity.
  - destruct Ht as (Hi & k & Hr & -> & Hlt). fold (zlen bs) in *. rewrite (loop_tag fuel i o tag k Hi Hr).
    replace (zlen bs <=? i + k) with false by lia. rewrite dec_upd_out; [reflexivity|]. unfold in_range. lia.
  - destruct Ht as (Hi & k & Hr & -> & Hlt). fold (zlen bs) in *. rewrite (loop_tag fuel i o tag k Hi Hr).
    replace (zlen bs <=? i + k) with false by lia. destruct (dec_upd_total reps o (tag / 8) (u64 (i + k))) as [(o' & -> & _)|[-> _]]; [|reflexivity].
    cbn [rbind]. destruct (slice_from bs (i + k)) as [b| | |] eqn:E; cbn [rbind]; try reflexivity.
    + rewrite size_bad by assumption. reflexivity.
    + exfalso. unfold slice_from in E. destruct (_ && _); discriminate.
    + exfalso. unfold slice_from in E. destruct (_ && _); discriminate.
Qed.

Lemma walk_loop n i l j : walk n bs i l j -> forall o, n = zlen (oa o) -> owf o ->
  exists o', track o l o' /\ forall fuel, decode_loop (length l + fuel) bs reps i o = decode_loop fuel bs reps j o'.
Proof.
  induction 1 as [i|i f p j l k Hh Hf Hw IH]; intros o Hn Hwf.
  - exists o. split; [apply track_refl, Hwf|reflexivity].
  - destruct (hop_step _ _ _ _ o Hh ltac:(lia) Hwf) as (o1 & Ht1 & He1).
    destruct (IH o1) as (o2 & Ht2 & He2); [destruct Ht1 as (_ & E & _); lia|apply Ht1|].
    exists o2. split; [exact (track_trans _ _ _ _ _ Ht1 Ht2)|]. intros fuel. cbn [length Nat.add]. rewrite He1. apply He2.
Qed.

Lemma loop_walk fuel : forall i o, owf o ->
  exists l j o', walk (zlen (oa o)) bs i l j /\ track o l o' /\
  ((length l = fuel /\ decode_loop fuel bs reps i o = OutOfFuel) \/
   (j = zlen bs /\ decode_loop fuel bs reps i o = Ok (None, o')) \/
   (exists l2 o2, ends_early (zlen (oa o)) bs j l2 /\ track o (l ++ l2) o2 /\ decode_loop fuel bs reps i o = Ok (Some ErrUnexpectedEOF, o2)) \/
   (fails (zlen (oa o)) bs j /\ decode_loop fuel bs reps i o = Panic)).
Proof.
  induction fuel as [|fuel IH]; intros i o Hwf.
  - exists [], i, o. split; [constructor|]. split; [apply track_refl, Hwf|]. left. auto.
  - destruct (pos_cases (zlen (oa o)) bs i Hb) as [->|[(l & He)|[Hf|(f & p & j & Hh & Hf)]]].
    + exists [], (zlen bs), o. split; [constructor|]. split; [apply track_refl, Hwf|]. right. left. split; [reflexivity|].
      cbn [decode_loop]. fold (zlen bs). rewrite Z.eqb_refl. reflexivity.
    + exists [], i, o. split; [constructor|]. split; [apply track_refl, Hwf|]. right. right. left.
      destruct (early_step i l o He Hwf) as (o2 & Ht & Hd). exists l, o2. split_and!; [exact He|exact Ht|apply Hd].
    + exists [], i, o. split; [constructor|]. split; [apply track_refl, Hwf|]. right. right. right. split; [exact Hf|].
      apply fail_step; assumption.
    + destruct (hop_step i f p j o Hh Hf Hwf) as (o1 & Ht1 & He1). rewrite He1.
      pose proof Ht1 as (Hwf1 & Hl1 & _). destruct (IH j o1 Hwf1) as (l & k & o' & Hw & Ht & Hc). rewrite Hl1 in Hw, Hc.
      exists ((f, p) :: l), k, o'. split; [econstructor; eassumption|]. split; [exact (track_trans _ _ _ _ _ Ht1 Ht)|].
      destruct Hc as [[H1 H2]|[Hc|[(l2 & o2 & H1 & H2 & H3)|Hc]]].
      * left. cbn [length]. auto.
      * auto.
      * right. right. left. exists l2, o2. split_and!; [exact H1|exact (track_trans _ _ _ _ _ Ht1 H2)|exact H3].
      * auto.
Qed.
End Step.

(** ** Walks that do not end *)
Lemma walk_app n bs i l1 j l2 k : walk n bs i l1 j -> walk n bs j l2 k -> walk n bs i (l1 ++ l2) k.
Proof. induction 1; intros H2; [exact H2|]. cbn. econstructor; eauto. Qed.

Lemma hop_range bs i f p j : hop bs i f p j -> 0 <= i < zlen bs.
Proof. intros (tag & s & (Hi & _) & _). exact Hi. Qed.

(** The positions a walk starts its records from. *)
Lemma walk_visits n bs i l j : walk n bs i l j ->
  exists ps, length ps = length l /\ (forall x, x ∈ ps -> 0 <= x < zlen bs) /\
    (forall k x, ps !! k = Some x -> walk n bs i (take k l) x) /\
    (forall a b x y, (a <= b)%nat -> ps !! a = Some x -> ps !! b = Some y -> walk n bs x (drop a (take b l)) y).
Proof.
  induction 1 as [i|i f p j l k Hh Hf Hw IH].
  - exists []. split_and!; [reflexivity|intros x Hx; inversion Hx|discriminate|discriminate].
  - destruct IH as (ps & Hl & Hr & Hp & Hs). exists (i :: ps). split_and!; [cbn; lia| | |].
    + intros x Hx. apply elem_of_cons in Hx as [->|Hx]; [eapply hop_range, Hh|apply Hr, Hx].
    + intros [|m] x Hx; [injection Hx as <-; constructor|]. cbn. econstructor; [exact Hh|exact Hf|apply Hp, Hx].
    + intros [|a] [|b] x y Hab Hx Hy; cbn in Hx, Hy.
      * injection Hx as <-. injection Hy as <-. constructor.
      * injection Hx as <-. cbn. econstructor; [exact Hh|exact Hf|apply Hp, Hy].
      * lia.
      * cbn. apply Hs; [lia|exact Hx|exact Hy].
Qed.

Lemma not_nodup (ps : list Z) : ~ NoDup ps -> exists a b x, (a < b)%nat /\ ps !! a = Some x /\ ps !! b = Some x.
Proof.
  induction ps as [|y ps IH]; intros Hn; [exfalso; apply Hn; constructor|].
  destruct (decide (y ∈ ps)) as [Hin|Hin].
  - apply elem_of_list_lookup in Hin as (b & Hb). exists 0%nat, (S b), y. split_and!; [lia|reflexivity|exact Hb].
  - destruct IH as (a & b & x & Hab & Ha & Hb).
    { intros Hnd. apply Hn. constructor; assumption. }
    exists (S a), (S b), x. split_and!; [lia|exact Ha|exact Hb].
Qed.

Lemma long_walk_cycles n bs i l j : walk n bs i l j -> (length bs < length l)%nat ->
  exists x l1 l2, walk n bs i l1 x /\ walk n bs x l2 x /\ l2 <> [].
Proof.
  intros Hw Hlen. destruct (walk_visits _ _ _ _ _ Hw) as (ps & Hl & Hr & Hp & Hs).
  destruct (not_nodup ps) as (a & b & x & Hab & Ha & Hb).
  { intros Hnd. pose proof (nodup_range (length bs) ps Hnd Hr). lia. }
  exists x, (take a l), (drop a (take b l)). split_and!; [apply Hp, Ha|apply (Hs a b); [lia|exact Ha|exact Hb]|].
  intros E. apply (f_equal length) in E. rewrite drop_length, take_length in E. cbn in E.
  apply lookup_lt_Some in Hb. lia.
Qed.

(** ** Decode *)
Section Decode.
Context (mt : mtype) (m : msg) (bs : list Z).
Hypothesis (Ht : of_type mt m) (Hb : Forall is_byte bs) (Hl : Z.of_nat (length bs) < 2 ^ 62).
Local Notation n := (Z.of_nat (alen mt)).

Definition positions (l : list (Z * Z)) (m' : msg) : Prop :=
  mbuf m' = bs /\
  forall f, 0 <= f < n ->
    offsets_get (moff m') f = Ok (match recorded (reps mt) f l None with Some p => (p, true) | None => (0, false) end).

Lemma track_positions l o' : track (reps mt) (offsets_clear (moff m)) l o' -> positions l (mkMsg bs o').
Proof.
  intros (Hwf & Hlo & Ho). destruct (offsets_clear_ok (moff m)) as (_ & Hlc & Hc & _). rewrite (of_type_zlen _ _ Ht) in Hlc.
  split; [reflexivity|]. intros f Hf. cbn [moff]. rewrite Hlc in *.
  assert (Hr : in_range o' f) by (unfold in_range; lia).
  pose proof (offsets_get_eq o' f Hwf Hr) as Hg. rewrite (Ho f Hf), Hc in Hg. destruct (recorded _ _ _ _); exact Hg.
Qed.

Lemma decode_settles k r : Decode k bs (moff m) (reps mt) = r -> r <> OutOfFuel -> Decode (fuel_of bs) bs (moff m) (reps mt) = r.
Proof.
  intros He Hr. destruct (decide (fuel_of bs <= k)%nat) as [Hk|Hk].
  - rewrite <- He. symmetry. apply decode_fuel_enough, Hk.
  - rewrite <- He. apply decode_mono; [lia|]. unfold Decode in He. rewrite He. exact Hr.
Qed.

Lemma clear_facts : owf (offsets_clear (moff m)) /\ zlen (oa (offsets_clear (moff m))) = n.
Proof.
  destruct (offsets_clear_ok (moff m)) as (Hwf & Hlc & _). rewrite (of_type_zlen _ _ Ht) in Hlc. auto.
Qed.

Lemma scan_accepts l : walk n bs 0 l (Z.of_nat (length bs)) -> exists m', m_Decode mt m bs = Ok (None, m') /\ positions l m'.
Proof.
  destruct clear_facts as [Hwf Hn]. intros Hw.
  destruct (walk_loop (reps mt) bs Hb Hl _ _ _ _ Hw (offsets_clear (moff m)) (eq_sym Hn) Hwf) as (o' & Htr & He).
  exists (mkMsg bs o'). split; [|apply track_positions, Htr].
  unfold m_Decode. rewrite (decode_settles (length l + 1) (Ok (None, o'))); [reflexivity| |discriminate].
  unfold Decode. rewrite He. cbn [decode_loop]. fold (zlen bs). rewrite Z.eqb_refl. reflexivity.
Qed.

Lemma scan_early l j l2 : walk n bs 0 l j -> ends_early n bs j l2 ->
  exists m', m_Decode mt m bs = Ok (Some ErrUnexpectedEOF, m') /\ positions (l ++ l2) m'.
Proof.
  destruct clear_facts as [Hwf Hn]. intros Hw Hearly.
  destruct (walk_loop (reps mt) bs Hb Hl _ _ _ _ Hw (offsets_clear (moff m)) (eq_sym Hn) Hwf) as (o1 & Htr & He).
  pose proof Htr as (Hwf1 & Hl1 & _). destruct (early_step (reps mt) bs Hb Hl j l2 o1) as (o2 & Htr2 & He2); [rewrite Hl1, Hn; exact Hearly|exact Hwf1|].
  exists (mkMsg bs o2). split; [|apply track_positions, (track_trans _ _ _ _ _ _ Htr Htr2)].
  unfold m_Decode. rewrite (decode_settles (length l + 1) (Ok (Some ErrUnexpectedEOF, o2))); [reflexivity| |discriminate].
  unfold Decode. rewrite He. apply He2.
Qed.

Lemma scan_fails l j : walk n bs 0 l j -> fails n bs j -> m_Decode mt m bs = Panic.
Proof.
  destruct clear_facts as [Hwf Hn]. intros Hw Hf.
  destruct (walk_loop (reps mt) bs Hb Hl _ _ _ _ Hw (offsets_clear (moff m)) (eq_sym Hn) Hwf) as (o1 & Htr & He).
  pose proof Htr as (Hwf1 & Hl1 & _).
  unfold m_Decode. rewrite (decode_settles (length l + 1) Panic); [reflexivity| |discriminate].
  unfold Decode. rewrite He. apply fail_step; try assumption. rewrite Hl1, Hn. exact Hf.
Qed.

Lemma walk_repeat x l k : walk n bs x l x -> walk n bs x (concat (replicate k l)) x.
Proof. intros Hw. induction k as [|k IH]; cbn; [constructor|]. eapply walk_app; eassumption. Qed.

Lemma scan_diverges x l1 l2 : walk n bs 0 l1 x -> walk n bs x l2 x -> l2 <> [] ->
  forall fuel, Decode fuel bs (moff m) (reps mt) = OutOfFuel.
Proof.
  intros H1 H2 Hne fuel. destruct clear_facts as [Hwf Hn].
  destruct (Decode fuel bs (moff m) (reps mt)) as [a| | |] eqn:E; [| | |reflexivity]; exfalso.
  1-3: pose proof (walk_app _ _ _ _ _ _ _ H1 (walk_repeat _ _ fuel H2)) as Hw;
    destruct (walk_loop (reps mt) bs Hb Hl _ _ _ _ Hw (offsets_clear (moff m)) (eq_sym Hn) Hwf) as (o' & _ & He);
    specialize (He 0%nat); cbn [decode_loop] in He;
    assert (Hle : (fuel <= length (l1 ++ concat (replicate fuel l2)) + 0)%nat)
      by (rewrite app_length; assert (fuel <= length (concat (replicate fuel l2)))%nat; [|lia];
          clear -Hne; induction fuel as [|k IH]; [lia|]; cbn [replicate concat]; rewrite app_length;
          destruct l2; [congruence|cbn [length]; lia]);
    unfold Decode in E; rewrite (decode_mono _ _ fuel _ 0 _ Hle), E in He by (rewrite E; discriminate); discriminate.
Qed.

(** The four ways, of which exactly one applies. *)
Lemma scan_total :
  (exists l m', walk n bs 0 l (Z.of_nat (length bs)) /\ m_Decode mt m bs = Ok (None, m') /\ positions l m') \/
  (exists l j l2 m', walk n bs 0 l j /\ ends_early n bs j l2 /\ m_Decode mt m bs = Ok (Some ErrUnexpectedEOF, m') /\ positions (l ++ l2) m') \/
  (exists l j, walk n bs 0 l j /\ fails n bs j /\ m_Decode mt m bs = Panic) \/
  (exists x l1 l2, walk n bs 0 l1 x /\ walk n bs x l2 x /\ l2 <> [] /\ m_Decode mt m bs = OutOfFuel /\
     forall fuel, Decode fuel bs (moff m) (reps mt) = OutOfFuel).
Proof.
  destruct clear_facts as [Hwf Hn].
  destruct (loop_walk (reps mt) bs Hb Hl (fuel_of bs) 0 (offsets_clear (moff m)) Hwf) as (l & j & o' & Hw & Htr & Hc).
  rewrite Hn in Hw, Hc. destruct Hc as [[Hlen Hd]|[[-> Hd]|[(l2 & o2 & He & Htr2 & Hd)|[Hf Hd]]]].
  - right. right. right. destruct (long_walk_cycles _ _ _ _ _ Hw) as (x & l1 & l2 & H1 & H2 & Hne); [unfold fuel_of in Hlen; lia|].
    exists x, l1, l2. split_and!; try assumption; [|eapply scan_diverges; eassumption].
    unfold m_Decode, Decode. rewrite Hd. reflexivity.
  - left. exists l, (mkMsg bs o'). split_and!; [exact Hw| |apply track_positions, Htr]. unfold m_Decode, Decode. rewrite Hd. reflexivity.
  - right. left. exists l, j, l2, (mkMsg bs o2). split_and!; [exact Hw|exact He| |apply track_positions, Htr2].
    unfold m_Decode, Decode. rewrite Hd. reflexivity.
  - right. right. left. exists l, j. split_and!; [exact Hw|exact Hf|]. unfold m_Decode, Decode. rewrite Hd. reflexivity.
Qed.
End Decode.

(** ** Accessors at a recorded position *)
Lemma varint_at_uvarint b v n : Forall is_byte b -> varint_at b v n <-> uvarint b = (v, n).
Proof.
  intros Hb. split.
  - intros [Hr|(Hc & -> & ->)]; [apply reads_uvarint in Hr as [? _]; assumption|].
    destruct (uvarint_cases b Hb) as [[Hu _]|[(v & vb & r & -> & Hv & Hu)|(Ho & _ & Hn & _)]]; [exact Hu| |].
    + apply cut_uvarint in Hc; [|exact Hb]. rewrite Hu in Hc. cbn in Hc. apply is_varint_len in Hv. lia.
    + apply cut_uvarint in Hc; [|exact Hb]. lia.
  - intros Hu. destruct (decide (n = 0)) as [->|Hn]; [|left; apply reads_uvarint; auto].
    right. assert (Hc : cut_varint b) by (apply cut_uvarint; [exact Hb|rewrite Hu; reflexivity]).
    split; [exact Hc|]. split; [|reflexivity].
    destruct (uvarint_cases b Hb) as [[Hu' _]|[(v' & vb & r & -> & Hv & Hu')|(_ & _ & Hn & _)]].
    + rewrite Hu in Hu'. congruence.
    + rewrite Hu in Hu'. injection Hu' as -> E. apply is_varint_len in Hv. lia.
    + rewrite Hu in Hn. cbn in Hn. lia.
Qed.

Definition outcome (g : got) : res pval :=
  match g with Value v => Ok v | Beyond => PastLen | Fault => Panic end.

Lemma get_obtains T m f p : Forall is_byte (mbuf m) -> zlen (mbuf m) < 2 ^ 63 -> owf (moff m) -> in_range (moff m) f ->
  ofun (moff m) f = Some p -> 0 <= p <= zlen (mbuf m) ->
  exists g, obtains T (mbuf m) p g /\ m_get T m f = outcome g.
Proof.
  intros Hb Hl Hwf Hr Hp Hrange. destruct m as [bs o]. cbn [mbuf moff] in *.
  pose proof (at_bytes bs p Hb) as Hbp.
  destruct (uvarint (at_pos bs p)) as [v n] eqn:Hu.
  assert (Hva : varint_at (at_pos bs p) v n) by (apply varint_at_uvarint; assumption).
  assert (Hsl : slice_from bs p = Ok (at_pos bs p)).
  { unfold slice_from. replace ((0 <=? p) && (p <=? zlen bs)) with true by lia. reflexivity. }
  pows.
  assert (Hfix : forall k, k = 4 \/ k = 8 ->
    (p + k <= zlen bs /\ slice_range bs p (u64 (p + k)) = Ok (firstn (Z.to_nat k) (at_pos bs p)) /\ length (firstn (Z.to_nat k) (at_pos bs p)) = Z.to_nat k) \/
    (zlen bs < p + k /\ slice_range bs p (u64 (p + k)) = PastLen)).
  { intros k Hk. rewrite u64_small by (pows; lia). unfold slice_range. replace ((0 <=? p) && (p <=? p + k)) with true by lia.
    destruct (Z.leb_spec (p + k) (zlen bs)) as [Hle|Hgt]; [left|right; auto].
    split; [exact Hle|]. replace (p + k - p) with k by lia. split; [reflexivity|].
    rewrite firstn_length, skipn_length. unfold zlen in *. lia. }
  assert (Hfb : forall k, Forall is_byte (firstn k (at_pos bs p))) by (intros k; apply Forall_take, Hbp).
  destruct (decide (ptype_wire_type T = 0)) as [HT|H0].
  { exists (Value (typed_varint T v)). split; [eapply obtains_varint; eassumption|].
    destruct (uvarint_cases _ Hbp) as [[Hu' _]|[(v' & vb & r & E & Hv & Hu')|(_ & Hv0 & _)]];
    [rewrite Hu in Hu'; injection Hu' as -> ->| rewrite Hu in Hu'; injection Hu' as -> -> | rewrite Hu in Hv0; cbn in Hv0; subst v].
    1,3: destruct T; try discriminate; cbn [m_get mbuf moff outcome];
      unfold GetBool, GetInt32, GetInt64, GetUint32, GetUint64, GetZigZagInt32, GetZigZagInt64;
      rewrite (with_offset_some _ _ _ _ _ Hwf Hr Hp), Hsl; cbn [rbind]; unfold varint; rewrite ?Hu; reflexivity.
    pose proof (is_varint_nonneg _ _ Hv) as Hv0. pose proof (varint_unzigzag _ _ r Hv) as Hz. rewrite <- E in Hz.
    destruct T; try discriminate; cbn [m_get mbuf moff outcome typed_varint value_of];
      unfold GetBool, GetInt32, GetInt64, GetUint32, GetUint64, GetZigZagInt32, GetZigZagInt64;
      rewrite (with_offset_some _ _ _ _ _ Hwf Hr Hp), Hsl; cbn [rbind]; rewrite ?Hu, ?Hz; cbn [rbind]; do 2 f_equal.
    - lia.
    - apply i32_signed.
    - apply i64_signed.
    - apply i32_signed. }
  destruct (decide (ptype_wire_type T = 1)) as [HT|H1].
  { destruct (Hfix 8 ltac:(lia)) as [(Hle & Hs & Hlen)|(Hgt & Hs)].
    - exists (Value (value_of T (WFixed64 (base256 (firstn 8 (at_pos bs p)))))). split; [apply obtains_fixed64; assumption|].
      assert (Hf : is_fixed 8 (base256 (firstn 8 (at_pos bs p))) (firstn 8 (at_pos bs p))) by (split_and!; [exact Hlen|apply Hfb|reflexivity]).
      apply fixed8 in Hf. change (Z.to_nat 8) with 8%nat in Hs.
      destruct T; try discriminate; cbn [m_get mbuf moff outcome value_of]; unfold GetFixedUint64, GetFixedInt64, GetFloat64;
        rewrite (with_offset_some _ _ _ _ _ Hwf Hr Hp), Hs; cbn [rbind]; rewrite Hf; cbn [rbind]; do 2 f_equal; apply i64_signed.
    - exists Beyond. split; [apply beyond_fixed64; assumption|].
      destruct T; try discriminate; cbn [m_get mbuf moff outcome]; unfold GetFixedUint64, GetFixedInt64, GetFloat64;
        rewrite (with_offset_some _ _ _ _ _ Hwf Hr Hp), Hs; reflexivity. }
  destruct (decide (ptype_wire_type T = 5)) as [HT|H5].
  { destruct (Hfix 4 ltac:(lia)) as [(Hle & Hs & Hlen)|(Hgt & Hs)].
    - exists (Value (value_of T (WFixed32 (base256 (firstn 4 (at_pos bs p)))))). split; [apply obtains_fixed32; assumption|].
      assert (Hf : is_fixed 4 (base256 (firstn 4 (at_pos bs p))) (firstn 4 (at_pos bs p))) by (split_and!; [exact Hlen|apply Hfb|reflexivity]).
      apply fixed4 in Hf. change (Z.to_nat 4) with 4%nat in Hs.
      destruct T; try discriminate; cbn [m_get mbuf moff outcome value_of]; unfold GetFixedUint32, GetFixedInt32, GetFloat32;
        rewrite (with_offset_some _ _ _ _ _ Hwf Hr Hp), Hs; cbn [rbind]; rewrite Hf; cbn [rbind]; do 2 f_equal; apply i32_signed.
    - exists Beyond. split; [apply beyond_fixed32; assumption|].
      destruct T; try discriminate; cbn [m_get mbuf moff outcome]; unfold GetFixedUint32, GetFixedInt32, GetFloat32;
        rewrite (with_offset_some _ _ _ _ _ Hwf Hr Hp), Hs; reflexivity. }
  assert (HT : ptype_wire_type T = 2) by (destruct T; cbn in *; congruence).
  set (lo := (p + n) mod 2 ^ 64). set (hi := (lo + v) mod 2 ^ 64).
  assert (Elo : u64 (p + u64 n) = lo) by (unfold u64, lo; pows; apply Zplus_mod_idemp_r).
  assert (Ehi : u64 (lo + v) = hi) by reflexivity.
  assert (Hlo : 0 <= lo) by (apply Z.mod_pos_bound; pows; lia).
  destruct (Z.lt_ge_cases hi lo) as [Hc|Hc].
  { exists Fault. split; [exact (fault_bytes T bs p v n lo hi HT Hva eq_refl eq_refl Hc)|].
    assert (Hs : slice_range bs lo hi = Panic) by (unfold slice_range; replace ((0 <=? lo) && (lo <=? hi)) with false by lia; reflexivity).
    destruct T; try discriminate; cbn [m_get mbuf moff outcome]; unfold GetString, GetBytes;
      rewrite (with_offset_some _ _ _ _ _ Hwf Hr Hp), Hsl; cbn [rbind]; rewrite Hu; cbn zeta; rewrite Elo, Ehi, Hs; reflexivity. }
  destruct (Z.lt_ge_cases (zlen bs) hi) as [Hd|Hd].
  { exists Beyond. split; [exact (beyond_bytes T bs p v n lo hi HT Hva eq_refl eq_refl ltac:(lia) Hd)|].
    assert (Hs : slice_range bs lo hi = PastLen) by (unfold slice_range; replace ((0 <=? lo) && (lo <=? hi)) with true by lia; replace (hi <=? zlen bs) with false by lia; reflexivity).
    destruct T; try discriminate; cbn [m_get mbuf moff outcome]; unfold GetString, GetBytes;
      rewrite (with_offset_some _ _ _ _ _ Hwf Hr Hp), Hsl; cbn [rbind]; rewrite Hu; cbn zeta; rewrite Elo, Ehi, Hs; reflexivity. }
  exists (Value (value_of T (WBytes (firstn (Z.to_nat (hi - lo)) (at_pos bs lo))))).
  split; [refine (obtains_bytes T bs p v n lo hi HT Hva eq_refl eq_refl _); unfold zlen in *; lia|].
  assert (Hs : slice_range bs lo hi = Ok (firstn (Z.to_nat (hi - lo)) (at_pos bs lo))).
  { unfold slice_range; replace ((0 <=? lo) && (lo <=? hi)) with true by lia; replace (hi <=? zlen bs) with true by lia. reflexivity. }
  destruct T; try discriminate; cbn [m_get mbuf moff outcome value_of]; unfold GetString, GetBytes;
    rewrite (with_offset_some _ _ _ _ _ Hwf Hr Hp), Hsl; cbn [rbind]; rewrite Hu; cbn zeta; rewrite Elo, Ehi, Hs; reflexivity.
Qed.

(** Determinism of [obtains]: what an accessor obtains is unique. *)
Lemma obtains_det T bs p g g' : Forall is_byte bs -> obtains T bs p g -> obtains T bs p g' -> g = g'.
Proof.
  intros Hb H1 H2. pose proof (at_bytes bs p Hb) as Hbp.
  assert (Hdet : forall v n v' n', varint_at (at_pos bs p) v n -> varint_at (at_pos bs p) v' n' -> v = v' /\ n = n').
  { intros v n v' n' Ha Hb'. apply varint_at_uvarint in Ha, Hb'; try exact Hbp. rewrite Ha in Hb'. injection Hb' as -> ->. auto. }
  destruct H1 as [v n Hw Hv|Hw Hv|Hw Hv|Hw Hv|Hw Hv|len n lo hi Hw Hv E1 E2 Hc|len n lo hi Hw Hv E1 E2 Hc Hc2|len n lo hi Hw Hv E1 E2 Hc];
  destruct H2 as [v' n' Hw' Hv'|Hw' Hv'|Hw' Hv'|Hw' Hv'|Hw' Hv'|len' n' lo' hi' Hw' Hv' E1' E2' Hc'|len' n' lo' hi' Hw' Hv' E1' E2' Hc' Hc2'|len' n' lo' hi' Hw' Hv' E1' E2' Hc'];
  try congruence; try lia;
  destruct (Hdet _ _ _ _ Hv Hv') as [-> ->]; subst; try reflexivity; lia.
Qed.
