(** * setSingle and appendSingle on a laid-out message *)
From Verif Require Import Runtime Spec VarintFacts OffsetsFacts RecFacts.
From Coq Require Import ZifyBool.

(** The tag bytes the code computes are the canonical tag. *)
Lemma make_tag_ok f t : 0 <= f < 2 ^ 59 -> 0 <= t < 8 -> make_tag f t = 8 * f + t.
Proof.
  intros Hf Ht. unfold make_tag. change (2 ^ 59) with 576460752303423488 in Hf.
  rewrite (i64_small (Z.shiftl f 3)).
  2:{ rewrite Z.shiftl_mul_pow2 by lia. change (2 ^ 3) with 8. pows. lia. }
  rewrite Z.lor_comm, lor_shiftl_add by (try lia; change (2 ^ 3) with 8; lia). change (2 ^ 3) with 8.
  rewrite u64_small by (pows; lia). lia.
Qed.

Lemma tag_bytes_ok f w :
  0 <= f < 2 ^ 59 ->
  exists tb, put_uvarint MaxVarintLen64 (make_tag f (wire_type w)) = Ok tb /\
    minimal_tag_enc (f, w) tb /\ tag_enc (f, w) tb.
Proof.
  intros Hf. pose proof (wire_type_range w) as Hw. rewrite make_tag_ok by assumption.
  change (2 ^ 59) with 576460752303423488 in Hf.
  destruct (put_uvarint_minimal MaxVarintLen64 (8 * f + wire_type w)) as (tb & Hp & Hm).
  - pows. lia.
  - change (7 * Z.of_nat MaxVarintLen64) with 70. change (2 ^ 70) with 1180591620717411303424. lia.
  - unfold MaxVarintLen64. lia.
  - exists tb. split; [exact Hp|]. split; (split; [cbn; lia|]); [exact Hm|apply Hm].
Qed.

Lemma indexes_ext reps o o' cs :
  zlen (oa o') = zlen (oa o) -> (forall f, in_range o f -> ofun o' f = ofun o f) ->
  indexes reps o cs -> indexes reps o' cs.
Proof.
  intros Hl He Hi f Hf. assert (in_range o f) by (unfold in_range in *; lia).
  rewrite He by assumption. apply Hi. assumption.
Qed.

Lemma pick_map reps f g l : pick reps f (map g l) = option_map g (pick reps f l).
Proof.
  unfold pick. destruct (is_repeated reps f).
  - destruct l; reflexivity.
  - induction l as [|x [|y l] IH]; try reflexivity. cbn [map] in *. exact IH.
Qed.

(** Appending a record and recording its position for a field without
    occurrence, or for a non-repeated field. *)
Lemma indexes_snoc_set reps o o' cs c :
  indexes reps o cs -> zlen (oa o') = zlen (oa o) ->
  (is_repeated reps (cf c) = false \/ occ (cf c) (map crecord cs) = []) ->
  (forall g, g <> cf c -> ofun o' g = ofun o g) ->
  ofun o' (cf c) = Some (zlen (flat cs) + zlen (ct c)) ->
  indexes reps o' (cs ++ [c]).
Proof.
  intros Hi Hl Hc Hne Hf g Hg. assert (Hg' : in_range o g) by (unfold in_range in *; lia).
  rewrite poss_app. cbn [poss]. rewrite Z.add_0_l. destruct (Z.eqb_spec (cf c) g) as [<-|Hn].
  - rewrite Hf. unfold pick. destruct Hc as [->|Hc].
    + rewrite last_snoc. reflexivity.
    + apply poss_nil_iff with (base := 0) in Hc. rewrite Hc. cbn. destruct (is_repeated _ _); reflexivity.
  - rewrite app_nil_r, Hne by congruence. apply Hi, Hg'.
Qed.

(** The same for a repeated field that already has an occurrence. *)
Lemma indexes_snoc_keep reps o cs c :
  indexes reps o cs -> is_repeated reps (cf c) = true -> occ (cf c) (map crecord cs) <> [] ->
  indexes reps o (cs ++ [c]).
Proof.
  intros Hi Hr Ho g Hg. rewrite (Hi g Hg), poss_app. cbn [poss]. rewrite Z.add_0_l.
  destruct (Z.eqb_spec (cf c) g) as [<-|Hn]; [|rewrite app_nil_r; reflexivity].
  unfold pick. rewrite Hr. destruct (poss (cf c) 0 cs) eqn:E; [|reflexivity].
  apply poss_nil_iff in E. congruence.
Qed.

(** Replacing a record by one of the same shape. *)
Lemma poss_replace g base pre c c' post :
  cf c' = cf c -> zlen (ct c') = zlen (ct c) -> zlen (cp c') = zlen (cp c) ->
  poss g base (pre ++ c' :: post) = poss g base (pre ++ c :: post).
Proof.
  intros Hf Ht Hp. rewrite !poss_app. cbn [poss]. unfold cbytes. rewrite !zlen_app, Hf, Ht, Hp. reflexivity.
Qed.

(** Removing a record shifts the positions behind it. *)
Lemma poss_remove g pre c post :
  Forall cvalid (pre ++ c :: post) -> g <> cf c ->
  poss g 0 (pre ++ post) =
  map (shift (zlen (flat pre) + zlen (cbytes c)) (zlen (cbytes c))) (poss g 0 (pre ++ c :: post)).
Proof.
  intros Hv Hg. apply Forall_app in Hv as [Hv1 Hv2]. apply Forall_cons in Hv2 as [Hc Hv2].
  rewrite !poss_app, map_app. cbn [poss]. replace (cf c =? g) with false by lia. f_equal.
  - rewrite <- (map_id (poss g 0 pre)) at 1. apply map_ext_in. intros x Hx. unfold shift.
    pose proof (poss_bounds g 0 pre Hv1) as Hb. rewrite Forall_forall in Hb.
    apply elem_of_list_In, Hb in Hx. pose proof (zlen_nonneg (cbytes c)).
    replace (_ <? x) with false by lia. reflexivity.
  - rewrite Z.add_0_l. rewrite poss_shift, map_map.
    rewrite <- (map_id (poss g (zlen (flat pre)) post)) at 1. apply map_ext_in. intros x Hx. unfold shift.
    pose proof (poss_bounds g (zlen (flat pre)) post Hv2) as Hb. rewrite Forall_forall in Hb.
    apply elem_of_list_In, Hb in Hx.
    replace (_ <? x + zlen (cbytes c)) with true by lia. lia.
Qed.

Definition settable (f : Z) (w : wval) (cs : list crec) : Prop :=
  forall pre c post, cs = pre ++ c :: post -> cf c = f -> occ f (map crecord post) = [] ->
    wire_type (cw c) = wire_type w /\ minimal_tag_enc (crecord c) (ct c).

(** What a setter may do to the list of records. *)
Inductive set_result (f : Z) (new : crec) (o o' : offsets) : list crec -> list crec -> Prop :=
| set_new cs : occ f (map crecord cs) = [] -> set_result f new o o' cs (cs ++ [new])
| set_in_place pre c post :
    cf c = f -> occ f (map crecord post) = [] -> zlen (cp new) = zlen (cp c) -> ct new = ct c -> o' = o ->
    set_result f new o o' (pre ++ c :: post) (pre ++ new :: post)
| set_move pre c post :
    cf c = f -> occ f (map crecord post) = [] -> zlen (cp new) <> zlen (cp c) -> ct new = ct c ->
    set_result f new o o' (pre ++ c :: post) (pre ++ post ++ [new]).

Lemma in_range_occ_pos reps o cs f :
  indexes reps o cs -> in_range o f -> is_repeated reps f = false ->
  forall pre c post, cs = pre ++ c :: post -> cf c = f -> occ f (map crecord post) = [] ->
  ofun o f = Some (zlen (flat pre) + zlen (ct c)).
Proof.
  intros Hi Hr Hnr pre c post -> Hc Ho. rewrite (Hi f Hr). unfold pick. rewrite Hnr, poss_app. cbn [poss].
  rewrite Hc, Z.eqb_refl.
  assert (Hp : forall b, poss f b post = []) by (intros b; apply poss_nil_iff, Ho).
  rewrite Hp, last_snoc. reflexivity.
Qed.

Lemma setSingle_ok reps o cs f w valLen val :
  Forall cvalid cs -> owf o -> indexes reps o cs -> in_range o f -> zlen (oa o) <= 2 ^ 29 ->
  is_repeated reps f = false -> payload_enc w (valLen ++ val) ->
  zlen (flat cs) + 10 + zlen (valLen ++ val) < 2 ^ 63 -> settable f w cs ->
  exists new cs' o',
    setSingle (flat cs) o f (wire_type w) valLen val = Ok (flat cs', o') /\
    cmin new /\ cf new = f /\ cw new = w /\ cp new = valLen ++ val /\
    owf o' /\ zlen (oa o') = zlen (oa o) /\ indexes reps o' cs' /\
    set_result f new o o' cs cs' /\
    (zlen (flat cs') <= 65535 -> om o = None -> om o' = None).
Proof.
  intros Hv Hwf Hi Hr Hn Hnr Hp Hlen Hset.
  assert (Hf : 0 <= f < 2 ^ 59).
  { unfold in_range in Hr. change (2 ^ 29) with 536870912 in Hn. change (2 ^ 59) with 576460752303423488. lia. }
  destruct (tag_bytes_ok f w Hf) as (tb & Htb & Hmin & Htag).
  pose proof (tag_len _ _ Htag) as Htl. pose proof (payload_len_pos _ _ Hp) as Hpl.
  set (new := mkCrec f w tb (valLen ++ val)).
  assert (Hnewv : cvalid new) by (split; assumption).
  assert (Hnew : cmin new) by (split; assumption).
  exists new. unfold setSingle, setSingle_ord. rewrite Htb. cbn [rbind].
  pose proof (zlen_nonneg (flat cs)) as Hcs0.
  (* the common tail *)
  assert (Htail : forall cs1 o1, Forall cvalid cs1 -> owf o1 -> zlen (oa o1) = zlen (oa o) ->
     zlen (flat cs1) <= zlen (flat cs) ->
     (forall g, in_range o g -> g <> f -> ofun o1 g = pick reps g (poss g 0 cs1)) ->
     exists o', (let buf := flat cs1 ++ tb in
                 let* o := offsets_set o1 f (u64 (zlen buf)) in
                 Ok (buf ++ valLen ++ val, o)) = Ok (flat (cs1 ++ [new]), o') /\
       owf o' /\ zlen (oa o') = zlen (oa o) /\ indexes reps o' (cs1 ++ [new]) /\
       (zlen (flat (cs1 ++ [new])) <= 65535 -> om o1 = None -> om o' = None)).
  { intros cs1 o1 Hv1 Hwf1 Hl1 Hle Hi1. pose proof (zlen_nonneg (flat cs1)).
    assert (Hx : zlen (flat cs1 ++ tb) = zlen (flat cs1) + zlen tb) by apply zlen_app.
    cbn zeta. rewrite u64_small by (pows; lia).
    destruct (offsets_set_ok o1 f (zlen (flat cs1 ++ tb)) Hwf1) as (o' & -> & Hwf' & Hl' & Ho & Hne & Hnone).
    { unfold in_range in *. lia. }
    { pows; lia. }
    cbn [rbind]. exists o'. split_and!.
    - rewrite flat_app. cbn [flat]. unfold cbytes. cbn [new ct cp]. rewrite app_nil_r, !app_assoc. reflexivity.
    - exact Hwf'.
    - lia.
    - intros g Hg. assert (Hg' : in_range o g) by (unfold in_range in *; lia).
      rewrite poss_app. cbn [poss new cf ct]. rewrite Z.add_0_l.
      destruct (Z.eqb_spec f g) as [<-|Hng].
      + rewrite Ho. replace (_ =? 0) with false by lia. unfold pick. rewrite Hnr, last_snoc, Hx. reflexivity.
      + rewrite app_nil_r, Hne by congruence. apply Hi1; congruence.
    - intros Hsz Hom. apply Hnone; [|exact Hom].
      rewrite flat_app in Hsz. cbn [flat] in Hsz. unfold cbytes in Hsz. cbn [new ct cp] in Hsz.
      rewrite app_nil_r, !zlen_app in Hsz. rewrite zlen_app in Hpl. lia. }
  pose proof (offsets_get_eq o f Hwf Hr) as Hg.
  destruct (decide (occ f (map crecord cs) = [])) as [Hocc|Hocc].
  - (* not set *)
    assert (Hnone : ofun o f = None).
    { rewrite (Hi f Hr), (proj2 (poss_nil_iff f 0 cs) Hocc). apply pick_nil. }
    rewrite Hnone in Hg. rewrite Hg. cbn [rbind].
    destruct (Htail cs o Hv Hwf eq_refl ltac:(lia)) as (o' & He & Hwf' & Hl' & Hi' & Hn').
    { intros g Hgr _. apply Hi, Hgr. }
    exists (cs ++ [new]), o'. split_and!; try assumption; try reflexivity.
    apply set_new, Hocc.
  - destruct (split_last f cs Hocc) as (pre & c & post & -> & Hc & Hpost).
    destruct (Hset pre c post eq_refl Hc Hpost) as [Hwt Hcm].
    assert (Hct : ct c = tb).
    { eapply minimal_varint_unique; [apply Hcm|]. cbn [crecord fst snd] in *. rewrite Hc, Hwt. apply Hmin. }
    pose proof Hv as Hv'. apply Forall_app in Hv' as [Hvpre Hvr]. apply Forall_cons in Hvr as [[Hvt Hvp] Hvpost].
    assert (Ho : ofun o f = Some (zlen (flat pre) + zlen (ct c))) by (eapply in_range_occ_pos; eauto).
    rewrite Ho in Hg. rewrite Hg. cbn [rbind].
    assert (Hflat : flat (pre ++ c :: post) = (flat pre ++ tb) ++ cp c ++ flat post).
    { rewrite flat_app. cbn [flat]. unfold cbytes. rewrite Hct, <- !app_assoc. reflexivity. }
    rewrite Hflat in *. rewrite !zlen_app in Hlen. rewrite Hct.
    pose proof (zlen_nonneg (flat pre)). pose proof (zlen_nonneg (flat post)). pose proof (zlen_nonneg (cp c)).
    pose proof (zlen_nonneg valLen). pose proof (zlen_nonneg val). rewrite (zlen_app valLen) in Hpl.
    assert (Hx : zlen (flat pre) + zlen tb = zlen (flat pre ++ tb)) by (rewrite zlen_app; reflexivity).
    rewrite Hx. pose proof (old_len_ok (flat pre ++ tb) (cw c) (cp c) (flat post) Hvp ltac:(lia)) as Hol.
    rewrite Hwt in Hol. rewrite Hol. cbn [rbind].
    destruct (Z.eqb_spec (zlen (cp c)) (zlen valLen + zlen val)) as [Heq|Hneq].
    + (* in place *)
      assert (Hcp : exists p1 p2, cp c = p1 ++ p2 /\ zlen p1 = zlen valLen /\ zlen p2 = zlen val).
      { exists (take (length valLen) (cp c)), (drop (length valLen) (cp c)). rewrite take_drop.
        split; [reflexivity|]. unfold zlen in *. rewrite take_length, drop_length. lia. }
      destruct Hcp as (p1 & p2 & Hcp & Hp1 & Hp2). rewrite Hcp.
      replace ((flat pre ++ tb) ++ (p1 ++ p2) ++ flat post) with ((flat pre ++ tb) ++ p1 ++ (p2 ++ flat post))
        by (rewrite <- !app_assoc; reflexivity).
      rewrite (copy_at_same _ p1 _ valLen) by (auto; lia). cbn [rbind].
      rewrite (u64_small (zlen valLen)) by (pows; lia). rewrite u64_small by (pows; lia).
      rewrite (app_assoc (flat pre ++ tb) valLen).
      rewrite (copy_at_same _ p2 _ val) by (rewrite ?zlen_app; lia). cbn [rbind].
      exists (pre ++ new :: post), o. split_and!; try assumption; try reflexivity.
      * do 2 f_equal. rewrite flat_app. cbn [flat]. unfold cbytes. cbn [new ct cp]. rewrite <- !app_assoc. reflexivity.
      * intros g Hgr. rewrite (Hi g Hgr). f_equal. symmetry. apply poss_replace; cbn [new cf ct cp]; try congruence.
        rewrite zlen_app. lia.
      * apply set_in_place; cbn [new cf ct cp]; try congruence. rewrite zlen_app. lia.
      * tauto.
    + (* move to the end *)
      rewrite (u64_small (zlen tb)) by (pows; lia). rewrite (u64_small (zlen (cp c))) by (pows; lia).
      rewrite (u64_small (zlen (flat pre ++ tb) - zlen tb)) by (pows; lia).
      rewrite (u64_small (zlen (flat pre ++ tb) + zlen (cp c))) by (pows; lia).
      assert (Hsf : slice_from ((flat pre ++ tb) ++ cp c ++ flat post) (zlen (flat pre ++ tb) + zlen (cp c)) = Ok (flat post)).
      { rewrite app_assoc. apply slice_from_app'. rewrite (zlen_app (flat pre ++ tb)). reflexivity. }
      rewrite Hsf. cbn [rbind].
      replace ((flat pre ++ tb) ++ cp c ++ flat post) with (flat pre ++ (tb ++ cp c) ++ flat post)
        by (rewrite <- !app_assoc; reflexivity).
      destruct (copy_at_remove (flat pre) (tb ++ cp c) (flat post) (zlen (flat pre ++ tb) - zlen tb)) as (junk & -> & Hj); [lia|].
      cbn [rbind]. rewrite zlen_app in Hj.
      replace (zlen (flat pre ++ tb) + zlen (cp c) - (zlen (flat pre ++ tb) - zlen tb)) with (zlen tb + zlen (cp c)) by lia.
      rewrite (u64_small (zlen tb + zlen (cp c))) by (pows; lia).
      rewrite app_assoc, slice_to_app by (rewrite u64_small; rewrite ?zlen_app; pows; lia). cbn [rbind].
      assert (Hcb : zlen (cbytes c) = zlen tb + zlen (cp c)) by (unfold cbytes; rewrite zlen_app, Hct; reflexivity).
      destruct (adjust_all_ok o (zlen (flat pre ++ tb) + zlen (cp c)) (zlen tb + zlen (cp c))
        (map_keys (mkOffsets (adjust_array (oa o) (zlen (flat pre ++ tb) + zlen (cp c)) (zlen tb + zlen (cp c))) (om o)))) as (o1 & He1 & Hwf1 & Hl1 & Ho1 & Hn1).
      * exact Hwf.
      * lia.
      * lia.
      * intros g x Hgx Hlt.
        destruct (decide (in_range o g)) as [Hgr|Hgr]; [|rewrite ofun_out in Hgx by assumption; discriminate].
        lia.
      * reflexivity.
      * rewrite He1. cbn [rbind].
        destruct (Htail (pre ++ post) o1) as (o' & He & Hwf' & Hl' & Hi' & Hn').
        -- apply Forall_app. split; assumption.
        -- exact Hwf1.
        -- exact Hl1.
        -- rewrite flat_app, !zlen_app. lia.
        -- intros g Hgr Hgf. rewrite Ho1, (Hi g Hgr), (poss_remove g pre c post Hv) by congruence.
           rewrite pick_map. do 2 f_equal; [|lia]. rewrite zlen_app. lia.
        -- cbn zeta in He.
           exists (pre ++ post ++ [new]), o'. rewrite <- app_assoc in Hi', Hn'. split_and!; try assumption; try reflexivity.
           ++ rewrite (app_assoc pre), <- He, (flat_app pre post). reflexivity.
           ++ apply set_move; cbn [new cf ct cp]; try congruence. rewrite zlen_app. lia.
           ++ intros Hs Hom. apply Hn'; [exact Hs|]. apply Hn1, Hom.
Qed.

Lemma appendSingle_ok reps o cs f w valLen val :
  Forall cvalid cs -> owf o -> indexes reps o cs -> in_range o f -> zlen (oa o) <= 2 ^ 29 ->
  is_repeated reps f = true -> payload_enc w (valLen ++ val) ->
  zlen (flat cs) + 10 + zlen (valLen ++ val) < 2 ^ 63 ->
  exists new o',
    appendSingle (flat cs) o f (wire_type w) valLen val = Ok (flat (cs ++ [new]), o') /\
    cmin new /\ cf new = f /\ cw new = w /\ cp new = valLen ++ val /\
    owf o' /\ zlen (oa o') = zlen (oa o) /\ indexes reps o' (cs ++ [new]) /\
    (zlen (flat (cs ++ [new])) <= 65535 -> om o = None -> om o' = None).
Proof.
  intros Hv Hwf Hi Hr Hn Hrep Hp Hlen.
  assert (Hf : 0 <= f < 2 ^ 59).
  { unfold in_range in Hr. change (2 ^ 29) with 536870912 in Hn. change (2 ^ 59) with 576460752303423488. lia. }
  destruct (tag_bytes_ok f w Hf) as (tb & Htb & Hmin & Htag).
  pose proof (tag_len _ _ Htag) as Htl. pose proof (payload_len_pos _ _ Hp) as Hpl.
  set (new := mkCrec f w tb (valLen ++ val)).
  assert (Hnewv : cvalid new) by (split; assumption).
  assert (Hnew : cmin new) by (split; assumption).
  exists new. unfold appendSingle. rewrite Htb. cbn [rbind].
  pose proof (zlen_nonneg (flat cs)) as Hcs0.
  pose proof (offsets_get_eq o f Hwf Hr) as Hg.
  assert (Hflat : (flat cs ++ tb) ++ valLen ++ val = flat (cs ++ [new])).
  { rewrite flat_app. cbn [flat]. unfold cbytes. cbn [new ct cp]. rewrite app_nil_r, !app_assoc. reflexivity. }
  rewrite Hflat. assert (Hx : zlen (flat cs ++ tb) = zlen (flat cs) + zlen tb) by apply zlen_app.
  destruct (decide (occ f (map crecord cs) = [])) as [Hocc|Hocc].
  - assert (Hnone : ofun o f = None).
    { rewrite (Hi f Hr), (proj2 (poss_nil_iff f 0 cs) Hocc). apply pick_nil. }
    rewrite Hnone in Hg. rewrite Hg. cbn [rbind]. rewrite u64_small by (pows; lia).
    destruct (offsets_set_ok o f (zlen (flat cs ++ tb)) Hwf Hr) as (o' & -> & Hwf' & Hl' & Ho & Hne & Hnn).
    { pows; lia. }
    cbn [rbind]. exists o'. split_and!; try assumption; try reflexivity.
    + eapply indexes_snoc_set; cbn [new cf ct]; eauto.
      rewrite Ho. replace (_ =? 0) with false by lia. rewrite Hx. reflexivity.
    + intros Hsz Hom. apply Hnn; [|exact Hom]. rewrite <- Hflat, zlen_app in Hsz. lia.
  - assert (Hsome : exists x, ofun o f = Some x).
    { destruct (ofun o f) eqn:E; [eauto|]. exfalso. rewrite (Hi f Hr) in E. apply pick_None in E.
      apply poss_nil_iff in E. congruence. }
    destruct Hsome as [x Hsome]. rewrite Hsome in Hg. rewrite Hg. cbn [rbind].
    exists o. split_and!; try assumption; try reflexivity; try tauto.
    apply indexes_snoc_keep; assumption.
Qed.

(** The order in which the map is iterated does not matter (no assumption on
    the message). *)
Lemma setSingle_order order buf o f typ valLen val :
  (forall ks, NoDup ks -> order ks ≡ₚ ks) ->
  setSingle_ord order buf o f typ valLen val = setSingle buf o f typ valLen val.
Proof.
  intros Hord. unfold setSingle, setSingle_ord.
  destruct (put_uvarint MaxVarintLen64 (make_tag f typ)) as [tb| | |]; cbn [rbind]; try reflexivity.
  destruct (offsets_get o f) as [[x [|]]| | |]; cbn [rbind]; try reflexivity.
  destruct (old_len buf x typ) as [n| | |]; cbn [rbind]; try reflexivity.
  destruct (n =? zlen valLen + zlen val); [reflexivity|].
  destruct (slice_from buf (u64 (x + u64 n))) as [src| | |]; cbn [rbind]; try reflexivity.
  destruct (copy_at buf (u64 (x - u64 (zlen tb))) src) as [[b1 n1]| | |]; cbn [rbind]; try reflexivity.
  destruct (slice_to b1 _) as [b2| | |]; cbn [rbind]; try reflexivity.
  rewrite (adjust_map_keys_perm _ _ (order _) (map_keys
    (mkOffsets (adjust_array (oa o) (u64 (x + u64 n))
       (u64 (u64 (x + u64 n) - u64 (x - u64 (zlen tb))))) (om o)))).
  - reflexivity.
  - rewrite Hord by apply map_keys_nodup. apply map_keys_nodup.
  - apply Hord, map_keys_nodup.
Qed.
