(** * A setter that stretches the message: the offsets and the bytes *)
From Verif Require Import VarintFacts RecFacts Heap HeapApi Core HeapFacts HeapSet HeapExec HeapAlloc HeapStable GetFacts ScanFacts FindFacts.
From Verif Require Import Spec SpecScan SpecFind SpecPos SpecMem ApiFacts OffsetsFacts PosFacts HeapEffect P_Find P_Pos P_Effect.
From Coq Require Import ZifyBool.

Lemma adjust_up o e d : owf o -> 0 <= e -> 0 < d < 65535 ->
  (forall f x, ofun o f = Some x -> x < 65535 /\ (e < x -> x + d < 65535)) ->
  let o1 := mkOffsets (adjust_array (oa o) e (u64 (- d))) (om o) in
  adjust_map_keys (map_keys o1) e (u64 (- d)) o1 = Ok o1 /\ owf o1 /\ zlen (oa o1) = zlen (oa o) /\
  (forall f, ofun o1 f = option_map (fun q => if e <? q then q + d else q) (ofun o f)).
Proof.
  intros Hwf He Hd Hpos o1. pose proof Hwf as (Hrng & Hm & Hv).
  assert (Hno : forall f, mget (om o) f = None).
  { intros f. destruct (mget (om o) f) as [z|] eqn:Ez; [|reflexivity]. exfalso.
    destruct (proj1 (Hm f)) as [H0 H1]; [eauto|]. pose proof (Hv _ _ Ez). destruct (Hpos f z); [|lia].
    rewrite ofun_cell. replace (0 <=? f) with true by lia. rewrite H1, Ez. cbn. reflexivity. }
  assert (Hk : map_keys o1 = []).
  { destruct (map_keys o1) as [|f l] eqn:E; [reflexivity|]. exfalso. assert (Hin : f ∈ map_keys o1) by (rewrite E; left).
    apply elem_of_map_keys in Hin as [z Hz]. unfold o1 in Hz. cbn [om] in Hz. rewrite Hno in Hz. discriminate. }
  set (g := fun offset => if negb (offset =? 65535) && (e <? offset) then u16 (offset - u16 (u64 (- d))) else offset).
  assert (Hlk : forall i, oa o1 !! i = g <$> (oa o !! i)).
  { intros i. unfold o1. cbn [oa]. unfold adjust_array. change (map ?h ?l) with (h <$> l). apply list_lookup_fmap. }
  assert (Hcell : forall i x, oa o !! i = Some x -> 0 <= x < 65535 /\ (e < x -> x + d < 65535)).
  { intros i x Hx. pose proof (Hrng _ _ Hx). assert (x <> 65535).
    { intros ->. destruct (proj2 (Hm (Z.of_nat i))) as [z Hz]; [split; [lia|rewrite Nat2Z.id; exact Hx]|]. rewrite Hno in Hz. discriminate. }
    split; [lia|]. intros Hlt. apply (Hpos (Z.of_nat i)); [|exact Hlt]. rewrite ofun_cell. replace (0 <=? Z.of_nat i) with true by lia.
    rewrite Nat2Z.id, Hx. cbn [cell]. replace (x =? 65535) with false by lia. replace (x =? 0) with false by lia. reflexivity. }
  assert (Hg : forall i x, oa o !! i = Some x -> g x = if e <? x then x + d else x).
  { intros i x Hx. destruct (Hcell _ _ Hx) as [H1 H2]. unfold g. replace (x =? 65535) with false by lia. cbn [negb andb].
    destruct (Z.ltb_spec e x) as [Hlt|]; [|reflexivity]. specialize (H2 Hlt).
    unfold u64, u16. change 65536 with (2 ^ 16). change 18446744073709551616 with (2 ^ 64).
    replace ((- d) mod 2 ^ 64) with (2 ^ 64 - d) by (rewrite <- (Z.mod_add (- d) 1) by lia; rewrite Z.mod_small; lia).
    rewrite Zminus_mod_idemp_r. replace (x - (2 ^ 64 - d)) with (x + d + (- 2 ^ 48) * 2 ^ 16) by lia. rewrite Z.mod_add by lia. apply Z.mod_small. lia. }
  split; [rewrite Hk; reflexivity|]. split_and!.
  - split_and!.
    + intros f x Hx. rewrite Hlk in Hx. destruct (oa o !! f) as [y|] eqn:Ey; [|discriminate]. injection Hx as <-. rewrite (Hg _ _ Ey).
      destruct (Hcell _ _ Ey). destruct (Z.ltb_spec e y); lia.
    + intros f. unfold o1 at 1. cbn [om]. rewrite Hno. rewrite Hlk. split; [intros [? ?]; discriminate|]. intros [H0 H1]. exfalso.
      destruct (oa o !! Z.to_nat f) as [y|] eqn:Ey; [|discriminate]. injection H1 as H1. rewrite (Hg _ _ Ey) in H1.
      destruct (Hcell _ _ Ey). destruct (Z.ltb_spec e y); lia.
    + exact Hv.
  - unfold o1. cbn [oa]. unfold adjust_array, zlen. rewrite map_length. reflexivity.
  - intros f. rewrite !ofun_cell. rewrite Hlk. unfold o1 at 1. cbn [om]. rewrite Hno.
    destruct (Z.leb_spec 0 f) as [Hf|Hf]; [|reflexivity].
    destruct (oa o !! Z.to_nat f) as [y|] eqn:Ey; [|reflexivity]. cbn. rewrite (Hg _ _ Ey). destruct (Hcell _ _ Ey) as [H1 H2].
    replace (y =? 65535) with false by lia. destruct (Z.eqb_spec y 0) as [->|Hy].
    + replace (e <? 0) with false by lia. reflexivity.
    + cbn [option_map]. destruct (Z.ltb_spec e y).
      * replace (y + d =? 65535) with false by lia. replace (y + d =? 0) with false by lia. reflexivity.
      * replace (y =? 65535) with false by lia. replace (y =? 0) with false by lia. reflexivity.
Qed.

Lemma effect_window σ σ1 t W : swf σ (Some t) -> effect σ (Some t) σ1 W -> zlen W = scap t -> window σ1 (Some t) = W.
Proof.
  intros (l & Hl & H1 & H2 & H3) He HW. unfold window, arr_of. rewrite (He _ _ Hl). unfold rewin. rewrite decide_True by done. unfold default, id, zlen in *.
  rewrite drop_app_ge by (rewrite take_length; lia). rewrite take_length. replace (Z.to_nat (soff t) - _)%nat with 0%nat by lia. rewrite drop_0.
  rewrite take_app_le by lia. apply take_ge. lia.
Qed.

Lemma stretch_effect grow σ h f typ vl v p k tag b e d : hwf σ h -> src_clear σ (h_buf h) v -> put_uvarint MaxVarintLen64 (make_tag f typ) = Ok tag -> tag <> [] ->
  offsets_get (hoffs σ h) f = Ok (p, true) -> 0 <= p <= hlen (h_buf h) -> hlen (h_buf h) < 2 ^ 62 ->
  old_len (sbytes σ (h_buf h)) p typ = Ok k ->
  b = p - zlen tag -> e = p + k -> 0 <= e < b -> d = b - e ->
  (hcap (h_buf h) < hlen (h_buf h) + d -> hsetSingle grow σ h f typ vl v = Panic) /\
  (hlen (h_buf h) + d <= hcap (h_buf h) ->
   let o1 := mkOffsets (adjust_array (oa (hoffs σ h)) e (u64 (- d))) (om (hoffs σ h)) in
   adjust_map_keys (map_keys o1) e (u64 (- d)) o1 = Ok o1 ->
   let b2 := firstn (Z.to_nat (hlen (h_buf h) + d)) (put (window σ (h_buf h)) (Z.to_nat b) (firstn (Z.to_nat (hlen (h_buf h) - b)) (skipn (Z.to_nat e) (sbytes σ (h_buf h))))) in
   forall o', offsets_set o1 f (u64 (zlen (b2 ++ tag))) = Ok o' ->
   exists σ' h', hsetSingle grow σ h f typ vl v = Ok (σ', h') /\ abs σ' h' = mkMsg (b2 ++ tag ++ vl ++ src_bytes σ v) o' /\ hwf σ' h').
Proof.
  intros Hwf Hv Htag Htn Hget Hp Hlen Hold Hb He Hbe Hd.
  pose proof (hsetSingle_frame grow σ h f typ vl v Hwf) as Hframe. revert Hframe.
  unfold hsetSingle. rewrite Htag, rbind_Ok, Hget, rbind_Ok, Hold, rbind_Ok.
  rewrite <- (src_len_ok _ _ _ Hv). replace (k =? _) with false by (unfold zlen in *; lia).
  pose proof (get_buf_some _ _ _ _ Hwf Hget) as Hnn. pose proof (proj1 Hwf) as Hs. change (2 ^ 62) with 4611686018427387904 in Hlen.
  assert (Htl : 0 <= zlen tag) by (unfold zlen; lia).
  rewrite (u64_small (zlen tag)) by (pows; lia). rewrite <- Hb. rewrite (u64_small b) by (pows; lia).
  assert (Ee : u64 (p + u64 k) = e). { unfold u64. rewrite Zplus_mod_idemp_r, <- He. apply Z.mod_small. lia. }
  rewrite Ee.
  destruct (h_buf h) as [s|] eqn:Eb; [|done]. cbn [hlen hcap] in *. pose proof Hs as (l & Hl & H1 & H2 & H3).
  assert (HW0 : zlen (window σ (Some s)) = scap s) by exact (window_len σ _ Hs).
  assert (E1 : exists s1, h_from (Some s) e = Ok s1 /\ sbytes σ s1 = skipn (Z.to_nat e) (sbytes σ (Some s))).
  { pose proof (h_from_ok σ (Some s) e Hs) as HH. unfold slice_from in HH. rewrite (sbytes_length σ _ Hs) in HH. cbn [hlen] in HH.
    replace ((0 <=? e) && (e <=? slen s)) with true in HH by lia. destruct HH as (d1 & E1 & E2 & _). eauto. }
  destruct E1 as (s1 & E1 & Es1). rewrite E1. rewrite rbind_Ok. rewrite Es1.
  set (y := skipn (Z.to_nat e) (sbytes σ (Some s))).
  assert (Hy : zlen y = slen s - e).
  { unfold y, zlen. rewrite skipn_length. pose proof (sbytes_length σ _ Hs) as Hsl. unfold zlen in Hsl. cbn [hlen] in Hsl. lia. }
  pose proof (h_copy_ok σ (Some s) b y Hs) as Hcp. unfold copy_at in Hcp. rewrite (sbytes_length σ _ Hs) in Hcp. cbn [hlen] in Hcp.
  replace ((0 <=? b) && (b <=? slen s)) with true in Hcp by lia. destruct Hcp as (σ1 & E2 & _ & Hm1 & _). rewrite E2, rbind_Ok.
  destruct (copy_effect _ _ _ _ _ _ _ _ Hs (effect_refl σ (Some s) Hs) HW0 E2) as (_ & _ & He1).
  replace (Z.min (slen s - b) (zlen y)) with (slen s - b) in He1 by lia.
  assert (HW1 : zlen (overw (window σ (Some s)) (Z.to_nat b) (take (Z.to_nat (slen s - b)) y)) = scap s).
  { unfold zlen in *. rewrite overw_length; [lia|]. rewrite take_length. lia. }
  pose proof (effect_window _ _ _ _ Hs He1 HW1) as Hwin.
  assert (E3 : u64 (slen s - u64 (e - b)) = slen s + d) by (unfold u64; rewrite Zminus_mod_idemp_r, Z.mod_small; lia).
  rewrite E3. unfold h_range. intros Hframe. split.
  - intros Hc. replace ((0 <=? 0) && (0 <=? slen s + d) && (slen s + d <=? scap s)) with false by lia. reflexivity.
  - intros Hc Ho1 o' Ho'.
    set (o1 := mkOffsets (adjust_array (oa (hoffs σ h)) e (u64 (- d))) (om (hoffs σ h))) in *.
    set (b2 := firstn (Z.to_nat (slen s + d)) (put (window σ (Some s)) (Z.to_nat b) (firstn (Z.to_nat (slen s - b)) y))) in *.
    replace ((0 <=? 0) && (0 <=? slen s + d) && (slen s + d <=? scap s)) with true in * by lia. cbn [rbind] in *.
    assert (Hoff : hoffs σ1 h = hoffs σ h) by (unfold hoffs; rewrite Hm1; reflexivity). rewrite Hoff in *.
    replace (u64 (e - b)) with (u64 (- d)) in * by (f_equal; lia). fold o1. change (mkOffsets (adjust_array (oa (hoffs σ h)) e (u64 (- d))) (om (hoffs σ h))) with o1 in Hframe. rewrite Ho1 in *. cbn [rbind] in *.
    set (buf := Some (mkSl (sarr s) (soff s + 0) (slen s + d - 0) (scap s - 0))) in *.
    destruct (put_offs σ1 (put_buf h buf) o1) as [σ2 h2] eqn:E5.
    destruct (hcut_ok σ h b e (u64 (- d)) (slen s + d) s1 σ1 (Z.min (slen s - b) (zlen y)) buf o1 σ2 h2 Hwf) as (A & B & C & D & E & F);
      try (rewrite Eb); [discriminate|exact E1|rewrite Es1; exact E2| |rewrite Hoff; exact Ho1|exact E5|].
    { unfold h_range. replace ((0 <=? 0) && (0 <=? slen s + d) && (slen s + d <=? scap s)) with true by lia. reflexivity. }
    assert (Hsb2 : sbytes σ2 (h_buf h2) = b2).
    { rewrite D. unfold buf, b2. cbn [sbytes sarr soff slen]. unfold arr_of. rewrite E. rewrite put_overw. rewrite <- Hwin.
      unfold window, arr_of. rewrite take_take. rewrite Z.add_0_r, Z.sub_0_r. f_equal. lia. }
    assert (Hv2 : src_apart σ2 v (in_spare (h_buf h2)) /\ src_bytes σ2 v = src_bytes σ v).
    { split.
      - eapply src_apart_frame; [apply B|rewrite Eb; apply Hv|]. intros a j Hj. apply B.
        apply spare_window with σ2; [apply A|done].
      - eapply src_frame; [apply B|rewrite Eb; apply Hv]. }
    destruct Hv2 as [Hv2 Hv2e].
    pose proof (hset_new_refines grow σ2 h2 f tag vl v A Htn Hv2) as H. cbv zeta in H. rewrite Hsb2, C, Hv2e, Ho' in H. cbn [rbind refines_msg] in H.
    destruct H as (σ' & h' & Hn & Hb' & Ho2). rewrite Hn in *. exists σ', h'. split; [reflexivity|]. split; [|apply Hframe].
    unfold abs. rewrite Hb', Ho2, <- app_assoc. reflexivity.
Qed.
