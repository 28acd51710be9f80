(** * Records laid out in a buffer: slices, sizes, positions *)
From Verif Require Import Runtime Spec VarintFacts OffsetsFacts.
From Coq Require Import ZifyBool.

(** ** Slice expressions on concatenations *)
Lemma slice_from_app l1 l2 : slice_from (l1 ++ l2) (zlen l1) = Ok l2.
Proof.
  unfold slice_from. rewrite zlen_app. pose proof (zlen_nonneg l1). pose proof (zlen_nonneg l2).
  replace ((0 <=? zlen l1) && (zlen l1 <=? zlen l1 + zlen l2)) with true by lia.
  rewrite to_nat_zlen, drop_app. reflexivity.
Qed.

Lemma slice_from_app' l1 l2 i : i = zlen l1 -> slice_from (l1 ++ l2) i = Ok l2.
Proof. intros ->. apply slice_from_app. Qed.

Lemma slice_range_app l1 l2 l3 lo hi :
  lo = zlen l1 -> hi = zlen l1 + zlen l2 -> slice_range (l1 ++ l2 ++ l3) lo hi = Ok l2.
Proof.
  intros -> ->. unfold slice_range. rewrite !zlen_app.
  pose proof (zlen_nonneg l1). pose proof (zlen_nonneg l2). pose proof (zlen_nonneg l3).
  replace ((0 <=? zlen l1) && (zlen l1 <=? zlen l1 + zlen l2)) with true by lia.
  replace (zlen l1 + zlen l2 <=? zlen l1 + (zlen l2 + zlen l3)) with true by lia.
  replace (zlen l1 + zlen l2 - zlen l1) with (zlen l2) by lia.
  rewrite !to_nat_zlen, drop_app, take_app. reflexivity.
Qed.

Lemma slice_to_app l1 l2 hi : hi = zlen l1 -> slice_to (l1 ++ l2) hi = Ok l1.
Proof.
  intros ->. unfold slice_to. apply (slice_range_app [] l1 l2); rewrite zlen_nil; lia.
Qed.

Lemma copy_at_same l1 l2 l3 src i :
  i = zlen l1 -> zlen src = zlen l2 ->
  copy_at (l1 ++ l2 ++ l3) i src = Ok (l1 ++ src ++ l3, zlen src).
Proof.
  intros -> Hs. unfold copy_at. rewrite !zlen_app.
  pose proof (zlen_nonneg l1). pose proof (zlen_nonneg l2). pose proof (zlen_nonneg l3).
  replace ((0 <=? zlen l1) && (zlen l1 <=? zlen l1 + (zlen l2 + zlen l3))) with true by lia.
  replace (Z.min (zlen l1 + (zlen l2 + zlen l3) - zlen l1) (zlen src)) with (zlen src) by lia.
  do 2 f_equal.
  replace (Z.to_nat (zlen l1 + zlen src)) with (length l1 + length l2)%nat by (unfold zlen in *; lia).
  rewrite !to_nat_zlen, take_app. f_equal.
  rewrite (take_ge src) by lia. f_equal.
  rewrite drop_add_app by reflexivity. apply drop_app.
Qed.

(** [copy(buf[b:], buf[e:])] followed by truncation removes [b,e). *)
Lemma copy_at_remove l1 l2 l3 i :
  i = zlen l1 ->
  exists junk, copy_at (l1 ++ l2 ++ l3) i l3 = Ok (l1 ++ l3 ++ junk, zlen l3) /\ zlen junk = zlen l2.
Proof.
  intros ->. unfold copy_at. rewrite !zlen_app.
  pose proof (zlen_nonneg l1). pose proof (zlen_nonneg l2). pose proof (zlen_nonneg l3).
  replace ((0 <=? zlen l1) && (zlen l1 <=? zlen l1 + (zlen l2 + zlen l3))) with true by lia.
  replace (Z.min (zlen l1 + (zlen l2 + zlen l3) - zlen l1) (zlen l3)) with (zlen l3) by lia.
  exists (drop (length l3) (l2 ++ l3)). split.
  - do 2 f_equal. rewrite !to_nat_zlen, take_app. f_equal.
    rewrite (take_ge l3) by lia. f_equal.
    replace (Z.to_nat (zlen l1 + zlen l3)) with (length l1 + length l3)%nat by (unfold zlen; lia).
    rewrite drop_add_app; reflexivity.
  - unfold zlen. rewrite drop_length, app_length. lia.
Qed.

(** ** Concrete records *)
Record crec := mkCrec { cf : Z; cw : wval; ct : list Z; cp : list Z }.

Definition crecord (c : crec) : record := (cf c, cw c).
Definition cvalid (c : crec) : Prop := tag_enc (crecord c) (ct c) /\ payload_enc (cw c) (cp c).
Definition cmin (c : crec) : Prop := cvalid c /\ minimal_tag_enc (crecord c) (ct c).
Definition cbytes (c : crec) : list Z := ct c ++ cp c.
Fixpoint flat (cs : list crec) : list Z :=
  match cs with [] => [] | c :: cs => cbytes c ++ flat cs end.

Lemma flat_app cs1 cs2 : flat (cs1 ++ cs2) = flat cs1 ++ flat cs2.
Proof. induction cs1 as [|c cs1 IH]; cbn [flat app]; [reflexivity|]. rewrite IH, app_assoc. reflexivity. Qed.

Lemma wire_concrete rs bs :
  wire rs bs <-> exists cs, Forall cvalid cs /\ map crecord cs = rs /\ flat cs = bs.
Proof.
  split.
  - induction 1 as [|r rs bs1 bs2 (tb & pb & -> & Ht & Hp) Hw (cs & Hv & <- & <-)].
    + exists []. repeat split; constructor.
    + exists (mkCrec r.1 r.2 tb pb :: cs). destruct r as [f w]. repeat split.
      constructor; [|exact Hv]. split; assumption.
  - intros (cs & Hv & <- & <-). induction cs as [|c cs IH]; cbn [map flat]; [constructor|].
    apply Forall_cons in Hv as [[Ht Hp] Hv]. constructor; [|apply IH, Hv].
    exists (ct c), (cp c). auto.
Qed.

Lemma wire_min_concrete rs bs :
  wire_min rs bs <-> exists cs, Forall cmin cs /\ map crecord cs = rs /\ flat cs = bs.
Proof.
  split.
  - induction 1 as [|r rs bs1 bs2 (tb & pb & -> & Ht & Hp) Hw (cs & Hv & <- & <-)].
    + exists []. repeat split; constructor.
    + exists (mkCrec r.1 r.2 tb pb :: cs). destruct r as [f w]. repeat split.
      constructor; [|exact Hv].
      split; [split; [|exact Hp]|exact Ht]. destruct Ht as [H0 [H1 _]]. split; assumption.
  - intros (cs & Hv & <- & <-). induction cs as [|c cs IH]; cbn [map flat]; [constructor|].
    apply Forall_cons in Hv as [[[Ht Hp] Hm] Hv]. constructor; [|apply IH, Hv].
    exists (ct c), (cp c). auto.
Qed.

Lemma wire_min_wire rs bs : wire_min rs bs -> wire rs bs.
Proof.
  rewrite wire_min_concrete, wire_concrete. intros (cs & Hv & H). exists cs. split; [|exact H].
  eapply Forall_impl; [exact Hv|]. intros c Hc. apply Hc.
Qed.

(** ** Sizes *)
Lemma is_fixed_len n v pb : is_fixed n v pb -> zlen pb = Z.of_nat n.
Proof. intros (H & _). unfold zlen. lia. Qed.

Lemma payload_len_pos w pb : payload_enc w pb -> 1 <= zlen pb.
Proof.
  destruct w; cbn [payload_enc]; intros H.
  - apply is_varint_len in H. lia.
  - apply is_fixed_len in H. lia.
  - destruct H as (lb & -> & H & _). rewrite zlen_app. apply is_varint_len in H.
    pose proof (zlen_nonneg bs). lia.
  - apply is_fixed_len in H. lia.
Qed.

Lemma tag_len r tb : tag_enc r tb -> 1 <= zlen tb <= 10.
Proof. intros [_ H]. eapply is_varint_len; exact H. Qed.

Lemma wire_type_range w : 0 <= wire_type w < 8.
Proof. destruct w; cbn; lia. Qed.

Lemma tag_field r tb :
  tag_enc r tb ->
  let tag := 8 * r.1 + wire_type r.2 in
  0 <= r.1 < 2 ^ 61 /\ i64 (Z.shiftr tag 3) = r.1 /\ Z.land tag 7 = wire_type r.2.
Proof.
  intros [H0 Hv] tag. apply is_varint_nonneg in Hv. pose proof (wire_type_range r.2).
  rewrite shiftr_3, land_7. subst tag. change (2 ^ 61) with 2305843009213693952. pows.
  split; [lia|]. split.
  - replace ((8 * r.1 + wire_type r.2) / 8) with r.1 by (apply Z.div_unique with (wire_type r.2); lia).
    unfold i64. rewrite Z.mod_small; lia.
  - symmetry. apply Z.mod_unique with r.1; lia.
Qed.

Lemma i64_small z : - 2 ^ 63 <= z < 2 ^ 63 -> i64 z = z.
Proof. pows. intros H. unfold i64. rewrite Z.mod_small; lia. Qed.
Lemma u64_small z : 0 <= z < 2 ^ 64 -> u64 z = z.
Proof. pows. intros H. unfold u64. apply Z.mod_small. lia. Qed.

Lemma fieldDataSize_ok w pb r :
  payload_enc w pb -> zlen pb < 2 ^ 63 -> fieldDataSize (wire_type w) (pb ++ r) = Ok (zlen pb).
Proof.
  intros Hp Hlt. unfold fieldDataSize, WireVarint, WireFixed32, WireFixed64, WireBytes.
  destruct w; cbn [wire_type payload_enc] in *.
  - rewrite (uvarint_spec v pb r Hp). reflexivity.
  - apply is_fixed_len in Hp. rewrite Hp. reflexivity.
  - destruct Hp as (lb & -> & Hv & _). rewrite zlen_app in *.
    rewrite <- app_assoc. change (2 =? 0) with false. change (2 =? 5) with false.
    change (2 =? 1) with false. change (2 =? 2) with true. cbn iota.
    rewrite (uvarint_spec _ lb (bs ++ r) Hv).
    pose proof (is_varint_len _ _ Hv). replace (zlen lb =? 0) with false by lia.
    fold (zlen bs). pose proof (zlen_nonneg bs).
    rewrite !i64_small by (rewrite ?i64_small; lia). reflexivity.
  - apply is_fixed_len in Hp. rewrite Hp. reflexivity.
Qed.

Lemma old_len_ok l1 w pb r :
  payload_enc w pb -> zlen pb < 2 ^ 63 ->
  old_len (l1 ++ pb ++ r) (zlen l1) (wire_type w) = Ok (zlen pb).
Proof.
  intros Hp Hlt. unfold old_len, WireVarint, WireFixed32, WireFixed64, WireBytes.
  destruct w; cbn [wire_type payload_enc] in *.
  - rewrite slice_from_app. cbn [Z.eqb rbind]. rewrite (uvarint_spec v pb r Hp). reflexivity.
  - apply is_fixed_len in Hp. rewrite Hp. reflexivity.
  - destruct Hp as (lb & -> & Hv & _). rewrite zlen_app in *.
    change (2 =? 0) with false. change (2 =? 5) with false.
    change (2 =? 1) with false. change (2 =? 2) with true. cbn iota.
    rewrite slice_from_app. cbn [rbind]. rewrite <- app_assoc.
    rewrite (uvarint_spec _ lb (bs ++ r) Hv).
    pose proof (is_varint_len _ _ Hv).
    fold (zlen bs). pose proof (zlen_nonneg bs).
    rewrite !i64_small by (rewrite ?i64_small; lia). f_equal. lia.
  - apply is_fixed_len in Hp. rewrite Hp. reflexivity.
Qed.

(** ** Positions of the occurrences of a field *)
Fixpoint poss (f base : Z) (cs : list crec) : list Z :=
  match cs with
  | [] => []
  | c :: cs =>
    let rest := poss f (base + zlen (cbytes c)) cs in
    if cf c =? f then (base + zlen (ct c)) :: rest else rest
  end.

Lemma poss_app f base cs1 cs2 :
  poss f base (cs1 ++ cs2) = poss f base cs1 ++ poss f (base + zlen (flat cs1)) cs2.
Proof.
  revert base. induction cs1 as [|c cs1 IH]; intros base; cbn [poss flat app].
  - rewrite zlen_nil, Z.add_0_r. reflexivity.
  - rewrite IH, zlen_app, Z.add_assoc. destruct (cf c =? f); reflexivity.
Qed.

Lemma poss_shift f d base cs : poss f (base + d) cs = map (fun x => x + d) (poss f base cs).
Proof.
  revert base. induction cs as [|c cs IH]; intros base; cbn [poss map]; [reflexivity|].
  replace (base + d + zlen (cbytes c)) with (base + zlen (cbytes c) + d) by lia. rewrite IH.
  destruct (cf c =? f); cbn [map]; [f_equal; lia|reflexivity].
Qed.

Lemma poss_bounds f base cs :
  Forall cvalid cs ->
  Forall (fun x => base < x < base + zlen (flat cs)) (poss f base cs).
Proof.
  revert base. induction cs as [|c cs IH]; intros base Hv; cbn [poss flat]; [constructor|].
  apply Forall_cons in Hv as [[Ht Hp] Hv]. apply tag_len in Ht. apply payload_len_pos in Hp.
  rewrite zlen_app. pose proof (zlen_nonneg (flat cs)).
  assert (Hc : zlen (cbytes c) = zlen (ct c) + zlen (cp c)) by (unfold cbytes; apply zlen_app).
  assert (Hrest : Forall (fun x => base < x < base + (zlen (cbytes c) + zlen (flat cs)))
                    (poss f (base + zlen (cbytes c)) cs)).
  { eapply Forall_impl; [apply IH, Hv|]. cbn. intros x Hx. lia. }
  destruct (cf c =? f); [|exact Hrest]. constructor; [lia|exact Hrest].
Qed.

Lemma poss_length f base cs : length (poss f base cs) = length (occ f (map crecord cs)).
Proof.
  revert base. induction cs as [|c cs IH]; intros base; cbn [poss map occ crecord]; [reflexivity|].
  destruct (cf c =? f); cbn [length]; rewrite IH; reflexivity.
Qed.

Lemma poss_nil_iff f base cs : poss f base cs = [] <-> occ f (map crecord cs) = [].
Proof.
  pose proof (poss_length f base cs) as H.
  split; intros E; rewrite E in H; cbn in H.
  - destruct (occ _ _); [reflexivity|discriminate].
  - destruct (poss _ _ _); [reflexivity|discriminate].
Qed.

Lemma occ_app f rs1 rs2 : occ f (rs1 ++ rs2) = occ f rs1 ++ occ f rs2.
Proof.
  induction rs1 as [|[g w] rs1 IH]; cbn [occ app]; [reflexivity|].
  rewrite IH. destruct (g =? f); reflexivity.
Qed.

(** Splitting at the last / first occurrence. *)
Lemma split_last f cs :
  occ f (map crecord cs) <> [] ->
  exists pre c post, cs = pre ++ c :: post /\ cf c = f /\ occ f (map crecord post) = [].
Proof.
  induction cs as [|c cs IH]; cbn [map occ crecord]; [congruence|].
  intros H. destruct (occ f (map crecord cs)) as [|w ws] eqn:E.
  - destruct (Z.eqb_spec (cf c) f) as [He|]; [|congruence].
    exists [], c, cs. auto.
  - destruct IH as (pre & c' & post & -> & Hc & Hp); [congruence|].
    exists (c :: pre), c', post. auto.
Qed.

Lemma split_first f cs :
  occ f (map crecord cs) <> [] ->
  exists pre c post, cs = pre ++ c :: post /\ cf c = f /\ occ f (map crecord pre) = [].
Proof.
  induction cs as [|c cs IH]; cbn [map occ crecord]; [congruence|].
  intros H. destruct (Z.eqb_spec (cf c) f) as [He|Hne].
  - exists [], c, cs. auto.
  - destruct (IH H) as (pre & c' & post & -> & Hc & Hp).
    exists (c :: pre), c', post. split_and!; auto. cbn [map occ crecord].
    replace (cf c =? f) with false by lia. exact Hp.
Qed.

(** ** The index Decode builds *)
Definition pick (reps : list Z) (f : Z) (l : list Z) : option Z :=
  if is_repeated reps f then head l else last l.

(** [o] is the exact index of the records [cs]. *)
Definition indexes (reps : list Z) (o : offsets) (cs : list crec) : Prop :=
  forall f, in_range o f -> ofun o f = pick reps f (poss f 0 cs).

Lemma pick_nil reps f : pick reps f [] = None.
Proof. unfold pick. destruct (is_repeated reps f); reflexivity. Qed.

Lemma pick_None reps f l : pick reps f l = None <-> l = [].
Proof.
  unfold pick. split.
  - intros H. destruct l as [|x l]; [reflexivity|]. exfalso.
    destruct (is_repeated reps f); [discriminate|]. rewrite last_None in H. discriminate.
  - intros ->. destruct (is_repeated reps f); reflexivity.
Qed.

Lemma pick_elem reps f l x : pick reps f l = Some x -> x ∈ l.
Proof.
  unfold pick. destruct (is_repeated reps f); intros H.
  - destruct l; [discriminate|]. injection H as <-. left.
  - apply last_Some in H as [l' ->]. apply elem_of_app. right. left.
Qed.

