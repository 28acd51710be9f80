(** * Decode with 32-bit ints on inputs that need not be messages *)
From Verif Require Import Runtime32 Spec SpecScan VarintFacts OffsetsFacts RecFacts DecodeFacts DecodeClass Fuel Width ScanFacts.
From Coq Require Import ZifyBool.

(** Wherever the reader gets, the field number fits 31 bits, and so does the end of the record. *)
Definition narrow (n : Z) (bs : list Z) : Prop :=
  forall l i tag p, walk n bs 0 l i -> tag_at bs i tag p ->
    tag < 2 ^ 34 /\ forall s, moves (tag mod 8) (at_pos bs p) s -> p + s < 2 ^ 31.

Lemma reads_within b v k : reads_varint b v k -> k <= zlen b.
Proof. intros [v' vb r _|init lst r _ _ _]; unfold zlen; rewrite app_length; cbn [length]; lia. Qed.

Section Narrow.
Context (reps bs : list Z) (n : Z).
Hypothesis (Hb : Forall is_byte bs) (Hl : zlen bs < 2 ^ 31) (Hn : narrow n bs).

Lemma size32 t b p : Forall is_byte b -> zlen b < 2 ^ 31 -> 0 <= p < 2 ^ 31 ->
  (forall s, moves t b s -> p + s < 2 ^ 31) ->
  fieldDataSize_w i32 t b = fieldDataSize t b /\
  forall s, fieldDataSize t b = Ok s -> i32 (p + s) = i64 (p + s).
Proof.
  intros Hbb Hbl Hp Hm. pose proof p31_63. change (2 ^ 31) with 2147483648 in *.
  destruct (move_cases t b Hbb) as [(s & Hs)|[[Ht Hc]|(H1 & H2 & H3 & H4)]].
  - specialize (Hm s Hs). rewrite (size_moves t b s Hbb) by (try exact Hs; pows; lia).
    assert (Hlo : - 2147483648 < s).
    { destruct Hs as [b v k Hr|b|b len k Hr|b]; [..|lia]; [|lia|]; apply reads_small in Hr; try exact Hbb; lia. }
    assert (E : i64 s = s) by (apply i64_small; pows; lia). rewrite E. split.
    + unfold fieldDataSize_w, WireVarint, WireFixed32, WireFixed64, WireBytes.
      destruct Hs as [b v k Hr|b|b len k Hr|b]; cbn [Z.eqb Pos.eqb]; try reflexivity;
        pose proof (reads_small _ _ _ Hbb Hr) as Hs; apply reads_uvarint in Hr as [Hu Hk]; try exact Hbb; rewrite Hu; cbn [snd]; [reflexivity|].
      replace (k =? 0) with false by lia. rewrite (i32_small len) by (change (2 ^ 31) with 2147483648; lia).
      rewrite i32_small by (change (2 ^ 31) with 2147483648; lia). reflexivity.
    + intros s' [= <-]. rewrite i32_small, i64_small; [reflexivity|pows; lia|change (2 ^ 31) with 2147483648; lia].
  - rewrite (size_cut t b Hbb Ht Hc). split.
    + apply cut_uvarint in Hc; [|exact Hbb]. unfold fieldDataSize_w, WireVarint, WireFixed32, WireFixed64, WireBytes.
      destruct Ht as [-> | ->]; cbn [Z.eqb Pos.eqb]; destruct (uvarint b) as [v k]; cbn in *; subst; reflexivity.
    + intros s [= <-]. rewrite i32_small, i64_small; [reflexivity|pows; lia|change (2 ^ 31) with 2147483648; lia].
  - rewrite (size_bad t b) by assumption. split; [|discriminate].
    unfold fieldDataSize_w, WireVarint, WireFixed32, WireFixed64, WireBytes.
    replace (t =? 0) with false by lia. replace (t =? 5) with false by lia.
    replace (t =? 1) with false by lia. replace (t =? 2) with false by lia. reflexivity.
Qed.

Lemma loop32 fuel : forall l i o, walk n bs 0 l i -> zlen (oa o) = n -> owf o ->
  decode_loop_w i32 fuel bs reps i o = decode_loop fuel bs reps i o.
Proof.
  pose proof p31_63 as P. pose proof Hl as Hl'. change (2 ^ 31) with 2147483648 in Hl'.
  assert (Hl62 : zlen bs < 2 ^ 62) by (change (2 ^ 62) with 4611686018427387904; lia).
  induction fuel as [|fuel IH]; intros l i o Hw Ho Hwf; [reflexivity|].
  cbn [decode_loop_w decode_loop]. fold (decode_loop_w i32).
  destruct (i =? zlen bs) eqn:Ei0; [reflexivity|]. destruct (zlen bs <? i) eqn:Ei; [reflexivity|].
  destruct (Z.lt_ge_cases i 0) as [Hneg|Hi].
  { unfold slice_from. replace (0 <=? i) with false by lia. reflexivity. }
  rewrite sl_at by lia. cbn [rbind]. pose proof (at_bytes bs i Hb) as Hbi. pose proof (at_small bs i) as Hai.
  destruct (uvarint (at_pos bs i)) as [tag k] eqn:Hu. destruct (Z.eqb_spec k 0) as [Hk|Hk]; [reflexivity|].
  assert (Hr : reads_varint (at_pos bs i) tag k) by (apply reads_uvarint; auto).
  pose proof (reads_small _ _ _ Hbi Hr) as [Hv Hkr].
  assert (Hik : i + k <= zlen bs).
  { apply reads_within in Hr. unfold zlen in *. rewrite skipn_length in Hr. lia. }
  rewrite (i32_small (i + k)) by (change (2 ^ 31) with 2147483648; lia). rewrite (i64_small (i + k)) by (pows; lia).
  destruct (zlen bs <=? i + k) eqn:El; [reflexivity|].
  assert (Hi' : 0 <= i < zlen bs) by lia.
  assert (Ht : tag_at bs i tag (i + k)). { unfold zlen in *. split; [lia|]. exists k. split_and!; auto. lia. }
  destruct (Hn l i tag (i + k) Hw Ht) as [Htag Hmv].
  change (2 ^ 34) with 17179869184 in Htag.
  assert (Hq : 0 <= tag / 8 < 2147483648) by (split; [apply Z.div_pos; lia|apply Z.div_lt_upper_bound; lia]).
  rewrite !shiftr_3. rewrite (i32_small (tag / 8)) by (change (2 ^ 31) with 2147483648; lia).
  rewrite (i64_small (tag / 8)) by (pows; lia).
  change (if is_repeated reps (tag / 8) then let* (_, ok) := offsets_get o (tag / 8) in if ok then Ok o else offsets_set o (tag / 8) (u64 (i + k)) else offsets_set o (tag / 8) (u64 (i + k)))
    with (dec_upd reps o (tag / 8) (u64 (i + k))).
  destruct (Z.lt_ge_cases (tag / 8) n) as [Hf|Hf].
  2:{ rewrite dec_upd_out by (unfold in_range; lia). reflexivity. }
  destruct (dec_upd_track reps o (tag / 8) (u64 (i + k)) Hwf) as (o' & Hd & Hwf' & Ho' & _); [lia|pose proof (Z.mod_pos_bound (i + k) 18446744073709551616 ltac:(lia)); unfold u64; pows; lia|].
  rewrite Hd. cbn [rbind].
  destruct (Z.lt_ge_cases (i + k) 0) as [Hpn|Hp].
  { unfold slice_from. replace (0 <=? i + k) with false by lia. reflexivity. }
  rewrite sl_at by lia. cbn [rbind]. rewrite !land_7.
  destruct (size32 (tag mod 8) (at_pos bs (i + k)) (i + k)) as [E1 E2];
    [apply at_bytes, Hb|pose proof (at_small bs (i + k)); lia|change (2 ^ 31) with 2147483648; lia|exact Hmv|].
  rewrite E1. destruct (fieldDataSize (tag mod 8) (at_pos bs (i + k))) as [s| | |] eqn:Es; cbn [rbind]; try reflexivity.
  destruct (s =? 0) eqn:Es0; [reflexivity|]. rewrite (E2 s eq_refl).
  destruct (move_cases (tag mod 8) (at_pos bs (i + k)) (at_bytes _ _ Hb)) as [(s' & Hs)|[[Ht8 Hc]|(H1 & H2 & H3 & H4)]].
  - rewrite (size_moves _ _ s' (at_bytes _ _ Hb)) in Es by (try exact Hs; pose proof (at_small bs (i + k)); pows; lia).
    injection Es as <-. rewrite i64_add.
    apply (IH (l ++ [(tag / 8, i + k)])); [|congruence|exact Hwf'].
    eapply walk_app; [exact Hw|]. econstructor; [|exact Hf|constructor].
    exists tag, s'. rewrite !signed64_i64. split_and!; auto; lia.
  - rewrite size_cut in Es by (try assumption; apply at_bytes, Hb). injection Es as <-. discriminate Es0.
  - rewrite size_bad in Es by assumption. discriminate Es.
Qed.
End Narrow.

Lemma Decode32 mt m bs fuel :
  of_type mt m -> Forall is_byte bs -> zlen bs < 2 ^ 31 -> narrow (Z.of_nat (alen mt)) bs ->
  Decode_w i32 fuel bs (moff m) (reps mt) = Decode fuel bs (moff m) (reps mt).
Proof.
  intros Ht Hb Hl Hn. destruct (clear_facts mt m Ht) as [H1 H2].
  unfold Decode_w, Decode. eapply loop32; try eassumption. constructor.
Qed.

(** Enough: no varint anywhere in the input is 2^30 or more. *)
Lemma narrow_small n bs :
  Forall is_byte bs -> zlen bs < 2 ^ 30 ->
  Forall (fun i => (uvarint (skipn i bs)).1 < 2 ^ 30) (seq 0 (length bs)) -> narrow n bs.
Proof.
  change (2 ^ 30) with 1073741824. intros Hb Hl Hall l i tag p _ (Hi & k & Hr & -> & Hp).
  assert (H : forall j v k, reads_varint (at_pos bs j) v k -> 0 <= j < zlen bs -> v < 1073741824 /\ j + k <= zlen bs).
  { intros j v k' Hr' Hj. pose proof (reads_within _ _ _ Hr') as Hw. 
    apply reads_uvarint in Hr' as [Hu _]; [|apply at_bytes, Hb]. split; [|unfold zlen in *; rewrite skipn_length in Hw; lia].
    rewrite Forall_forall in Hall. specialize (Hall (Z.to_nat j)). rewrite Hu in Hall. apply Hall.
    apply elem_of_seq. unfold zlen in Hj. lia. }
  fold (zlen bs) in *. change (2 ^ 34) with 17179869184. change (2 ^ 31) with 2147483648.
  destruct (H i tag k Hr Hi) as [H1 H2]. split; [lia|].
  intros s Hm. assert (Hk : k <> 0) by (apply reads_uvarint in Hr; [tauto|apply at_bytes, Hb]).
  destruct (Z.lt_ge_cases (i + k) 0) as [Hn|Hn].
  - replace (at_pos bs (i + k)) with bs in Hm by (replace (Z.to_nat (i + k)) with 0%nat by lia; reflexivity).
    destruct Hm as [b v k' Hr'|b|b v k' Hr'|b]; try lia; destruct (H 0 v k') as [H3 H4]; try exact Hr'; lia.
  - remember (at_pos bs (i + k)) as b0 eqn:Eb. remember (tag mod 8) as t eqn:Et. clear Et.
    destruct Hm as [b v k' Hr'|b|b v k' Hr'|b]; try lia; subst b; destruct (H (i + k) v k' Hr') as [H3 H4]; lia.
Qed.
