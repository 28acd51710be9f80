(** * Zero-copy: where the slices returned by the accessors lie *)
From Verif Require Import Heap HeapApi Core Core2 Core4 HeapFacts HeapSet HeapExec VarintFacts OffsetsFacts RecFacts
  GetFacts Fuel IterFacts ApiInv.
From Coq Require Import ZifyBool.

Definition win (s : slice) (p n : Z) : slice := mkSl (sarr s) (soff s + p) n (scap s - p).
Definition tail_of (s : slice) (p : Z) : slice := win s p (slen s - p).

Lemma h_from_at σ s l1 l2 i : swf σ (Some s) -> sbytes σ (Some s) = l1 ++ l2 -> i = zlen l1 ->
  h_from (Some s) i = Ok (Some (tail_of s i)) /\ sbytes σ (Some (tail_of s i)) = l2.
Proof.
  intros Hs Hb ->. pose proof (sbytes_length σ _ Hs) as Hl. rewrite Hb, zlen_app in Hl. cbn [hlen] in Hl.
  pose proof (zlen_nonneg l1). pose proof (zlen_nonneg l2).
  pose proof (h_from_ok σ (Some s) (zlen l1) Hs) as H'. rewrite Hb, slice_from_app in H'.
  destruct H' as (d & Hd & Hdb & _). cbn [h_from] in *.
  rewrite (proj2 (Z.leb_le _ _)), (proj2 (Z.leb_le _ _)) in * by lia. cbn [andb] in *. split; [done|].
  injection Hd as <-. done.
Qed.

Lemma h_range_at σ s l1 l2 l3 lo hi : swf σ (Some s) -> sbytes σ (Some s) = l1 ++ l2 ++ l3 ->
  lo = zlen l1 -> hi = zlen l1 + zlen l2 ->
  h_range (Some s) lo hi = Ok (Some (win s lo (zlen l2))) /\ sbytes σ (Some (win s lo (zlen l2))) = l2.
Proof.
  intros Hs Hb -> ->. pose proof (sbytes_length σ _ Hs) as Hl. rewrite Hb, !zlen_app in Hl. cbn [hlen] in Hl.
  pose proof (zlen_nonneg l1). pose proof (zlen_nonneg l2). pose proof (zlen_nonneg l3).
  pose proof (h_range_ok σ (Some s) (zlen l1) (zlen l1 + zlen l2) Hs) as H'.
  rewrite Hb, slice_range_app in H' by done.
  destruct H' as (d & Hd & Hdb & _). cbn [h_range] in *.
  destruct Hs as (l & _ & _ & Hc & _).
  rewrite !(proj2 (Z.leb_le _ _)) in * by lia. cbn [andb] in *.
  replace (zlen l1 + zlen l2 - zlen l1) with (zlen l2) in * by lia.
  split; [done|]. injection Hd as <-. done.
Qed.

(** The slice behind a length-delimited field. *)
Lemma slice_at_win σ h s f l1 lb x r :
  swf σ (Some s) -> h_buf h = Some s -> sbytes σ (Some s) = l1 ++ lb ++ x ++ r ->
  owf (hoffs σ h) -> in_range (hoffs σ h) f -> ofun (hoffs σ h) f = Some (zlen l1) ->
  is_varint (zlen x) lb -> zlen (sbytes σ (Some s)) < 2 ^ 63 ->
  slice_at σ h f = Ok (Some (Some (win s (zlen l1 + zlen lb) (zlen x)))) /\
  sbytes σ (Some (win s (zlen l1 + zlen lb) (zlen x))) = x.
Proof.
  intros Hs Hh Hb Hwf Hr Ho Hv Hlen. unfold slice_at.
  rewrite (with_offset_some _ _ _ _ _ Hwf Hr Ho), Hh.
  destruct (h_from_at σ s l1 (lb ++ x ++ r) (zlen l1) Hs Hb eq_refl) as [-> Hsb]. cbn [rbind].
  rewrite Hsb, (uvarint_spec _ _ _ Hv).
  rewrite Hb, !zlen_app in Hlen.
  pose proof (is_varint_len _ _ Hv). pose proof (zlen_nonneg x). pose proof (zlen_nonneg r). pose proof (zlen_nonneg l1).
  rewrite (u64_small (zlen lb)) by (pows; lia). rewrite !u64_small by (pows; lia).
  destruct (h_range_at σ s (l1 ++ lb) x r (zlen l1 + zlen lb) (zlen l1 + zlen lb + zlen x)) as [-> Hsb2]; try done.
  - rewrite Hb, <- app_assoc. done.
  - rewrite zlen_app. lia.
  - rewrite zlen_app. lia.
Qed.

Lemma find_pos_at f post : forall pre fuel,
  Forall cvalid post -> zlen (pre ++ flat post) < 2 ^ 63 -> (length post < fuel)%nat ->
  find_pos fuel (pre ++ flat post) f (zlen pre) = Ok (head (poss f (zlen pre) post)).
Proof.
  induction post as [|c post IH]; intros pre fuel Hv Hlen Hfuel; (destruct fuel as [|fuel]; [lia|]).
  - cbn [flat find_pos poss]. rewrite app_nil_r. replace (zlen pre <? zlen pre) with false by lia. reflexivity.
  - apply Forall_cons in Hv as [[Ht Hp] Hv].
    pose proof (tag_len _ _ Ht) as Htl. pose proof (payload_len_pos _ _ Hp) as Hpl.
    cbn [flat find_pos poss]. cbn [flat] in Hlen. unfold cbytes in *.
    rewrite <- !app_assoc in *. rewrite !zlen_app in *.
    pose proof (zlen_nonneg pre). pose proof (zlen_nonneg (flat post)).
    replace (zlen pre <? _) with true by lia. rewrite slice_from_app. cbn [rbind].
    rewrite (uvarint_spec _ _ (cp c ++ flat post) (proj2 Ht)).
    destruct (tag_field _ _ Ht) as (_ & -> & ->). cbn [crecord fst snd]. cbn zeta.
    rewrite (i64_small (zlen pre + zlen (ct c))) by lia.
    assert (Hsf : slice_from (pre ++ ct c ++ cp c ++ flat post) (zlen pre + zlen (ct c)) = Ok (cp c ++ flat post)).
    { rewrite app_assoc. apply slice_from_app'. rewrite zlen_app. reflexivity. }
    rewrite Hsf. cbn [rbind]. destruct (cf c =? f); [reflexivity|].
    rewrite (fieldDataSize_ok (cw c) (cp c) (flat post) Hp) by lia. cbn [rbind].
    rewrite i64_small by lia.
    replace (pre ++ ct c ++ cp c ++ flat post) with ((pre ++ ct c ++ cp c) ++ flat post) by (rewrite <- !app_assoc; reflexivity).
    replace (zlen pre + zlen (ct c) + zlen (cp c)) with (zlen (pre ++ ct c ++ cp c)) by (rewrite !zlen_app; lia).
    replace (zlen pre + (zlen (ct c) + zlen (cp c))) with (zlen (pre ++ ct c ++ cp c)) by (rewrite !zlen_app; lia).
    cbn [length] in Hfuel. apply IH; [exact Hv| |lia]. rewrite !zlen_app. lia.
Qed.

(** One step of the iterator: at the payload of a record, with [post] behind. *)
Lemma h_find_at σ s f pb x post :
  swf σ (Some s) -> sbytes σ (Some s) = pb ++ flat post ->
  payload_enc (WBytes x) pb -> Forall cvalid post -> zlen (pb ++ flat post) < 2 ^ 63 ->
  h_find σ (Some s) f =
    Ok (fmap (tail_of s) (head (poss f (zlen pb) post)), Some (win s (zlen pb - zlen x) (zlen x))).
Proof.
  intros Hs Hsb (lb & -> & Hv & Hby) Hpost Hlen. cbn [h_find]. rewrite Hsb, <- !app_assoc in *.
  rewrite (uvarint_spec _ _ (x ++ flat post) Hv). fold (zlen x).
  pose proof (is_varint_len _ _ Hv). pose proof (zlen_nonneg x). pose proof (zlen_nonneg (flat post)).
  rewrite !zlen_app in Hlen.
  rewrite (i64_small (zlen x)) by lia. rewrite i64_small by lia.
  destruct (h_range_at σ s lb x (flat post) (zlen lb) (zlen lb + zlen x)) as [-> _]; try done. cbn [rbind].
  replace (lb ++ x ++ flat post) with ((lb ++ x) ++ flat post) by (rewrite <- app_assoc; reflexivity).
  replace (zlen lb + zlen x) with (zlen (lb ++ x)) by apply zlen_app.
  rewrite find_pos_at; [|exact Hpost|rewrite !zlen_app; lia|].
  2: { unfold fuel_of. rewrite app_length. pose proof (length_flat post Hpost). lia. }
  cbn [rbind]. replace (zlen (lb ++ x) - zlen x) with (zlen lb) by (rewrite zlen_app; lia).
  destruct (poss f (zlen (lb ++ x)) post) as [|p l] eqn:E; cbn [head fmap option_fmap option_map]; [done|].
  pose proof (poss_bounds f (zlen (lb ++ x)) post Hpost) as Hb. rewrite E in Hb. apply Forall_cons in Hb as [Hb _].
  pose proof (sbytes_length σ _ Hs) as Hl. rewrite Hsb, !zlen_app in Hl. cbn [hlen] in Hl.
  rewrite !zlen_app in Hb. cbn [h_from].
  rewrite !(proj2 (Z.leb_le _ _)) by lia. done.
Qed.

(** The iterators over the rest of a message: positions relative to the buffer
    [s]; the rest [cs] starts at [base]. *)
Definition rest_it (s : slice) (f base : Z) (cs : list crec) : option slice :=
  fmap (tail_of s) (head (poss f base cs)).

Lemma payloads_cons f base c cs :
  payloads f base (map part (c :: cs)) =
  if cf c =? f then (base + zlen (cbytes c) - zlen (bytes_of (cw c)), bytes_of (cw c)) :: payloads f (base + zlen (cbytes c)) (map part cs)
  else payloads f (base + zlen (cbytes c)) (map part cs).
Proof. done. Qed.

Lemma tail_tail s p q : tail_of (tail_of s p) q = tail_of s (p + q).
Proof. unfold tail_of, win. cbn. f_equal; lia. Qed.

Lemma poss_head_shift f base cs s q :
  rest_it (tail_of s q) f base cs = rest_it s f (base + q) cs.
Proof.
  unfold rest_it. rewrite poss_shift. destruct (poss f base cs) as [|p l]; [done|]. cbn.
  rewrite tail_tail. do 2 f_equal. lia.
Qed.

Lemma swf_tail σ s l1 l2 p : swf σ (Some s) -> sbytes σ (Some s) = l1 ++ l2 -> p = zlen l1 -> swf σ (Some (tail_of s p)).
Proof.
  intros Hs Hb ->. destruct (h_from_at σ s l1 l2 (zlen l1) Hs Hb eq_refl) as [H _].
  eapply h_from_sub in H as [H _]; done.
Qed.

Lemma h_finds_at σ s f : forall cs base k l1,
  swf σ (Some s) -> sbytes σ (Some s) = l1 ++ flat cs -> base = zlen l1 ->
  Forall cvalid cs -> all_bytes f cs -> zlen (sbytes σ (Some s)) < 2 ^ 63 ->
  exists l, h_finds k σ (rest_it s f base cs) f = Ok l /\
    l = map Some (map (fun p => win s p.1 (zlen p.2)) (take k (payloads f base (map part cs)))) ++
        replicate (k - length (payloads f base (map part cs))) None.
Proof.
  induction cs as [|c cs IH]; intros base k l1 Hs Hb -> Hv Hall Hlen.
  - eexists. split; [|done]. unfold rest_it. cbn [poss head fmap option_fmap option_map payloads map length take]. rewrite take_nil.
    cbn [map app]. rewrite Nat.sub_0_r. clear. induction k as [|k IHk]; [done|]. cbn [h_finds h_find rbind]. rewrite IHk. done.
  - apply Forall_cons in Hv as [[Ht Hp] Hv].
    assert (Hall' : all_bytes f cs) by (intros c' Hc'; apply Hall; right; done).
    cbn [flat] in Hb. rewrite payloads_cons. unfold rest_it. cbn [poss].
    destruct (Z.eqb_spec (cf c) f) as [Hc|Hc].
    + destruct (Hall c ltac:(left) Hc) as [x Hx]. rewrite Hx in *. cbn [bytes_of head fmap option_fmap option_map].
      destruct k as [|k]; [eexists; split; done|]. cbn [h_finds].
      unfold cbytes in Hb.
      assert (Hb' : sbytes σ (Some s) = (l1 ++ ct c) ++ cp c ++ flat cs) by (rewrite Hb, <- !app_assoc; done).
      destruct (h_from_at σ s _ _ (zlen l1 + zlen (ct c)) Hs Hb') as [_ Hsb]; [rewrite zlen_app; lia|].
      assert (Hst : swf σ (Some (tail_of s (zlen l1 + zlen (ct c))))).
      { eapply swf_tail; [done|exact Hb'|rewrite zlen_app; lia]. }
      rewrite Hb', !zlen_app in Hlen. pose proof (zlen_nonneg l1). pose proof (zlen_nonneg (ct c)).
      rewrite (h_find_at σ _ f (cp c) x cs Hst Hsb Hp Hv) by (rewrite zlen_app; lia). cbn [rbind].
      fold (rest_it (tail_of s (zlen l1 + zlen (ct c))) f (zlen (cp c)) cs).
      rewrite poss_head_shift.
      destruct (IH (zlen l1 + zlen (cbytes c)) k (l1 ++ ct c ++ cp c)) as (l & Hl & Hl2); try done.
      { rewrite Hb, <- !app_assoc. done. }
      { unfold cbytes. rewrite !zlen_app. lia. }
      { rewrite Hb', !zlen_app. lia. }
      replace (zlen (cp c) + (zlen l1 + zlen (ct c))) with (zlen l1 + zlen (cbytes c)) by (unfold cbytes; rewrite !zlen_app; lia).
      rewrite Hl. cbn [rbind]. eexists. split; [done|]. cbn [length Nat.sub take map app fst snd]. rewrite <- Hl2. f_equal.
      f_equal. unfold tail_of, win, cbytes. cbn. rewrite zlen_app. f_equal; lia.
    + fold (rest_it s f (zlen l1 + zlen (cbytes c)) cs). apply (IH _ k (l1 ++ cbytes c)); try done.
      * rewrite Hb, <- app_assoc. done.
      * rewrite zlen_app. done.
Qed.

(** The accessors of a laid-out message. *)
Section laid_out.
  Context (σ : mem) (h : hmsg) (s : slice) (reps : list Z) (cs : list crec).
  Context (Hh : h_buf h = Some s) (Hs : swf σ (Some s)) (Hb : sbytes σ (Some s) = flat cs).
  Context (Hv : Forall cvalid cs) (Hwf : owf (hoffs σ h)) (Hi : indexes reps (hoffs σ h) cs) (Hlen : zlen (flat cs) < 2 ^ 63).

  Lemma payloads_poss f base : forall l, all_bytes f l -> Forall cvalid l -> payloads f base (map part l) = [] <-> occ f (map crecord l) = [].
  Proof.
    intros l. revert base. induction l as [|c l IH]; intros base Ha Hvl; [done|]. rewrite payloads_cons. cbn [map occ crecord].
    destruct (cf c =? f); [done|]. apply IH; [|inversion Hvl; done]. intros c' Hc'. apply Ha. right. done.
  Qed.

  Lemma payloads_app f base l1 l2 :
    payloads f base (map part (l1 ++ l2)) = payloads f base (map part l1) ++ payloads f (base + zlen (flat l1)) (map part l2).
  Proof.
    revert base. induction l1 as [|c l1 IH]; intros base; cbn [app flat].
    - cbn. rewrite Z.add_0_r. done.
    - rewrite !payloads_cons, IH, zlen_app, Z.add_assoc. destruct (cf c =? f); done.
  Qed.

  Lemma slice_at_last f :
    in_range (hoffs σ h) f -> is_repeated reps f = false ->
    (forall w, last (occ f (map crecord cs)) = Some w -> wire_type w = 2) ->
    match last (payloads f 0 (map part cs)) with
    | None => slice_at σ h f = Ok None
    | Some p => slice_at σ h f = Ok (Some (Some (win s p.1 (zlen p.2)))) /\ sbytes σ (Some (win s p.1 (zlen p.2))) = p.2
    end.
  Proof using All.
    intros Hr Hrep Hw. pose proof (Hi f Hr) as Ho. unfold pick in Ho. rewrite Hrep in Ho.
    destruct (decide (occ f (map crecord cs) = [])) as [Hocc|Hocc].
    - rewrite (proj2 (poss_nil_iff f 0 cs) Hocc) in Ho. cbn in Ho.
      assert (payloads f 0 (map part cs) = []) as ->.
      { clear -Hocc. generalize 0. induction cs as [|c l IH]; intros base; [done|]. rewrite payloads_cons. cbn [map occ crecord] in *.
        destruct (cf c =? f); [done|]. auto. }
      cbn. unfold slice_at. rewrite (with_offset_none _ _ _ _ Hwf Hr Ho). done.
    - destruct (split_last f cs Hocc) as (pre & c & post & Hcs & Hcf & Hpost).
      assert (Hlast : last (occ f (map crecord cs)) = Some (cw c)).
      { rewrite Hcs, map_app, occ_app. cbn [map occ crecord]. rewrite Hcf, Z.eqb_refl, Hpost. apply last_snoc. }
      pose proof (Hw _ Hlast) as Hwt. destruct (cw c) as [| |x|] eqn:Ex; try done.
      assert (Hpp : payloads f (0 + zlen (flat pre) + zlen (cbytes c)) (map part post) = []).
      { clear -Hpost. generalize (0 + zlen (flat pre) + zlen (cbytes c)). induction post as [|c' l IH]; intros base; [done|].
        rewrite payloads_cons. cbn [map occ crecord] in *. destruct (cf c' =? f); [done|]. auto. }
      rewrite Hcs, payloads_app, payloads_cons, Hcf, Z.eqb_refl, Hpp, last_snoc, Ex. cbn [bytes_of fst snd].
      rewrite Hcs, poss_app, last_app in Ho. cbn [poss] in Ho. rewrite Hcf, Z.eqb_refl in Ho.
      rewrite (proj2 (poss_nil_iff f _ post) Hpost) in Ho. cbn [last] in Ho.
      assert (Hvc : cvalid c). { rewrite Hcs in Hv. apply Forall_app in Hv as [_ Hv']. inversion Hv'. done. }
      destruct Hvc as [Ht Hp]. rewrite Ex in Hp. destruct Hp as (lb & Hcp & Hlb & _).
      destruct (slice_at_win σ h s f (flat pre ++ ct c) lb x (flat post)) as [H1 H2]; try done.
      + rewrite Hb, Hcs, flat_app. cbn [flat]. unfold cbytes. rewrite Hcp, <- !app_assoc. done.
      + rewrite zlen_app, Ho. done.
      + rewrite Hb. done.
      + assert (Heq : zlen (flat pre ++ ct c) + zlen lb = 0 + zlen (flat pre) + zlen (cbytes c) - zlen x).
        { unfold cbytes. rewrite Hcp, !zlen_app. lia. }
        rewrite Heq in *. done.
  Qed.

  Lemma h_iter_first f :
    in_range (hoffs σ h) f -> is_repeated reps f = true -> h_iter σ h f = Ok (rest_it s f 0 cs).
  Proof using All.
    intros Hr Hrep. pose proof (Hi f Hr) as Ho. unfold pick in Ho. rewrite Hrep in Ho. unfold h_iter, rest_it.
    destruct (poss f 0 cs) as [|p l] eqn:E.
    - rewrite (with_offset_none _ _ _ _ Hwf Hr Ho). done.
    - rewrite (with_offset_some _ _ _ _ _ Hwf Hr Ho), Hh. cbn [head fmap option_fmap option_map h_from].
      pose proof (poss_bounds f 0 cs Hv) as Hbd. rewrite E in Hbd. apply Forall_cons in Hbd as [Hbd _].
      pose proof (sbytes_length σ _ Hs) as Hl. rewrite Hb in Hl. cbn [hlen] in Hl.
      rewrite !(proj2 (Z.leb_le _ _)) by lia. done.
  Qed.
End laid_out.
