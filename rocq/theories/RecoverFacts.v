(** * Recovered panics: the functions of Recover.v *)
From Verif Require Import VarintFacts RecFacts Heap HeapApi Core HeapFacts HeapSet HeapExec HeapAlloc HeapStable GetFacts DecodeFacts ScanFacts FindFacts.
From Verif Require Import Spec SpecScan SpecFind SpecPos SpecMem Core6 ApiFacts OffsetsFacts PosFacts HeapEffect P_Find P_Pos P_Effect StretchFacts P_Beyond.
From Verif Require Import SpecShare Share ShareFacts ShareArg ShareCore ShareRel ShareStep ShareSane SpecRecover Recover.
From Verif Require PanicState PanicFacts PanicDecode.
From Coq Require Import ZifyBool.

(** ** Agreement with Heap.v *)
Definition ragrees (x : res unit * (mem * hmsg)) (y : res (mem * hmsg)) : Prop :=
  x.1 = (let* _ := y in Ok tt) /\ forall s, y = Ok s -> x.2 = s.

Lemma ragrees_attempt {A} s (r : res A) k kr : (forall a, r = Ok a -> ragrees (k a) (kr a)) -> ragrees (attempt s r k) (rbind r kr).
Proof. intros H. destruct r as [a| | |]; cbn [attempt rbind]; [apply H; reflexivity|split; [reflexivity|discriminate]..]. Qed.

Lemma r_set_new_agrees grow σ h f tb vl v : ragrees (r_set_new grow σ h f tb vl v) (hset_new grow σ h f tb vl v).
Proof.
  unfold r_set_new, hset_new. destruct (h_append grow σ (h_buf h) tb) as [σ1 b1]. change (hoffs σ1 (put_buf h b1)) with (hoffs σ1 h).
  apply ragrees_attempt. intros o _. destruct (put_offs σ1 (put_buf h b1) o) as [σ2 h2]. destruct (h_append grow σ2 b1 vl) as [σ3 b3]. destruct (h_append grow σ3 b3 _) as [σ4 b4].
  split; [reflexivity|]. intros s [= <-]. reflexivity.
Qed.

Lemma r_setSingle_agrees grow σ h f typ vl v : ragrees (r_setSingle grow σ h f typ vl v) (hsetSingle grow σ h f typ vl v).
Proof.
  unfold r_setSingle, hsetSingle. apply ragrees_attempt. intros tb _. apply ragrees_attempt. intros [off ok] _. cbn [fst snd].
  destruct ok; [|apply r_set_new_agrees]. apply ragrees_attempt. intros ol _. destruct (ol =? _).
  - apply ragrees_attempt. intros [σ1 n] _. cbn [fst snd]. apply ragrees_attempt. intros [σ2 n2] _. split; [reflexivity|]. intros s [= <-]. reflexivity.
  - apply ragrees_attempt. intros s1 _. apply ragrees_attempt. intros [σ1 n] _. cbn [fst snd]. apply ragrees_attempt. intros b _.
    change (hoffs σ1 (put_buf h b)) with (hoffs σ1 h). set (o := mkOffsets _ _).
    destruct (PanicFacts.p_adjust_agrees (map_keys o) (u64 (off + u64 ol)) (u64 (u64 (off + u64 ol) - u64 (off - u64 (zlen tb)))) [] o) as [H1 H2].
    destruct (PanicState.p_adjust_map_keys _ _ _ _) as [r [b' o']]. cbn [fst snd] in *. subst r.
    destruct (adjust_map_keys _ _ _ _) as [o1| | |]; cbn [rbind attempt] in *.
    + specialize (H2 _ eq_refl). injection H2 as -> ->. destruct (put_offs σ1 (put_buf h b) o1) as [σ2 h2]. apply r_set_new_agrees.
    + destruct (put_offs _ _ _). split; [reflexivity|discriminate].
    + destruct (put_offs _ _ _). split; [reflexivity|discriminate].
    + destruct (put_offs _ _ _). split; [reflexivity|discriminate].
Qed.

Lemma r_appendSingle_agrees grow σ h f typ vl v : ragrees (r_appendSingle grow σ h f typ vl v) (happendSingle grow σ h f typ vl v).
Proof.
  unfold r_appendSingle, happendSingle. apply ragrees_attempt. intros tb _. destruct (h_append grow σ (h_buf h) tb) as [σ1 b1]. change (hoffs σ1 (put_buf h b1)) with (hoffs σ1 h).
  apply ragrees_attempt. intros [off ok] _. cbn [fst snd]. apply ragrees_attempt. intros o _. destruct (put_offs σ1 (put_buf h b1) o) as [σ2 h2].
  destruct (h_append grow σ2 b1 vl) as [σ3 b3]. destruct (h_append grow σ3 b3 _) as [σ4 b4].
  split; [reflexivity|]. intros s [= <-]. reflexivity.
Qed.

Lemma r_set_agrees grow T σ h f v : ragrees (r_set grow T σ h f v) (h_set grow T σ h f v).
Proof. unfold r_set, h_set. apply ragrees_attempt. intros [[typ vl] x] _. apply r_setSingle_agrees. Qed.
Lemma r_set_view_agrees grow σ h f s : ragrees (r_set_view grow σ h f s) (h_set_view grow σ h f s).
Proof. unfold r_set_view, h_set_view. apply ragrees_attempt. intros vl _. apply r_setSingle_agrees. Qed.
Lemma r_append_bytes_agrees grow σ h f v : ragrees (r_append_bytes grow σ h f v) (h_append_bytes grow σ h f v).
Proof. unfold r_append_bytes, h_append_bytes. apply ragrees_attempt. intros vl _. apply r_appendSingle_agrees. Qed.

Lemma r_decode_agrees mt σ h s : (r_decode mt σ h s).1 = (let* (err, _, _) := h_decode mt σ h s in Ok err) /\
  forall err σ' h', h_decode mt σ h s = Ok (err, σ', h') -> (r_decode mt σ h s).2 = (σ', h').
Proof.
  unfold r_decode, h_decode, Decode, PanicState.p_Decode. unfold PanicState.pbind at 1 2, PanicState.wbuf. cbn [fst snd].
  destruct (PanicFacts.p_decode_loop_agrees (fuel_of (sbytes σ s)) (sbytes σ s) (reps mt) 0 (sbytes σ s) (offsets_clear (hoffs σ h))) as (H1 & H2 & H3).
  unfold PanicState.pbind. cbn [fst snd].
  destruct (PanicState.p_decode_loop _ _ _ _ _) as [r [b o]]. cbn [fst snd] in *. subst r.
  destruct (decode_loop _ _ _ _ _) as [[err o']| | |]; cbn [rbind]; try (split; [reflexivity|discriminate]).
  rewrite (H3 _ _ eq_refl). destruct (put_offs σ (put_buf h s) o') as [σ2 h2]. split; [reflexivity|]. intros e2 σ3 h3 [= -> -> ->]. reflexivity.
Qed.

(** An action that returns leaves the same state as in Share.v. *)
Lemma rexec_pexec grow P a : (rexec grow P a).1 = (let* (o, _) := pexec grow P a in Ok o) /\
  forall o P', pexec grow P a = Ok (o, P') -> (rexec grow P a).2 = P'.
Proof.
  assert (Hw : forall i mt (x : res unit * (mem * hmsg)) (y : res (mem * hmsg)), ragrees x y ->
    (let* _ := x.1 in Ok SawNothing) = (let* (o, _) := (let* (σ, h) := y in Ok (SawNothing, mkPst σ (<[i := (mt, h)]> (p_objs P)) (p_held P))) in Ok o) /\
    forall o P', (let* (σ, h) := y in Ok (SawNothing, mkPst σ (<[i := (mt, h)]> (p_objs P)) (p_held P))) = Ok (o, P') ->
      mkPst x.2.1 (<[i := (mt, x.2.2)]> (p_objs P)) (p_held P) = P').
  { intros i mt x y [E1 E2]. rewrite E1. destruct y as [[σ' h']| | |]; cbn [rbind]; try (split; [reflexivity|discriminate]).
    rewrite (E2 _ eq_refl). cbn. split; [reflexivity|]. intros o P' [= _ <-]. reflexivity. }
  assert (Hg : forall r : res (SpecShare.seen * pst), 
    fst (match r with Ok (o, P') => (Ok o, P') | Panic => (Panic, P) | PastLen => (PastLen, P) | OutOfFuel => (OutOfFuel, P) end) = (let* (o, _) := r in Ok o) /\
    forall o P', r = Ok (o, P') -> snd (match r with Ok (o, P') => (Ok o, P') | Panic => (Panic, P) | PastLen => (PastLen, P) | OutOfFuel => (OutOfFuel, P) end) = P').
  { intros [[o P']| | |]; cbn; split; try reflexivity; try discriminate. intros o2 P2 [= _ <-]. reflexivity. }
  destruct a; try apply Hg; cbn [rexec pexec].
  - destruct (p_objs P !! i) as [[mt h]|]; cbn [of_opt rbind]; [|split; [reflexivity|discriminate]]. apply Hw, r_set_agrees.
  - destruct (p_objs P !! i) as [[mt h]|]; cbn [of_opt rbind]; [|split; [reflexivity|discriminate]].
    destruct (p_held P !! k) as [s|]; cbn [of_opt rbind]; [|split; [reflexivity|discriminate]]. apply Hw, r_set_view_agrees.
  - destruct (p_objs P !! i) as [[mt h]|]; cbn [of_opt rbind]; [|split; [reflexivity|discriminate]].
    destruct (p_held P !! k) as [s|]; cbn [of_opt rbind]; [|split; [reflexivity|discriminate]]. apply Hw, r_append_bytes_agrees.
  - destruct (p_objs P !! i) as [[mt h]|]; cbn [of_opt rbind]; [|split; [reflexivity|discriminate]].
    destruct (p_held P !! k) as [s|]; cbn [of_opt rbind]; [|split; [reflexivity|discriminate]].
    destruct (r_decode_agrees mt (p_mem P) h s) as [E1 E2]. cbn [fst snd]. rewrite E1. destruct (h_decode _ _ _ _) as [[[err σ'] h']| | |]; cbn [rbind]; try (split; [reflexivity|discriminate]).
    rewrite (E2 _ _ _ eq_refl). cbn. split; [reflexivity|]. intros o P' [= _ <-]. reflexivity.
Qed.

(** ** Where Decode panics *)
Section PDecode.
Context (rp bs : list Z).
Hypothesis (Hb : Forall is_byte bs) (Hl : zlen bs < 2 ^ 62).
Import PanicState.

Definition ptrack (o : offsets) (l : list (Z * Z)) (o' : offsets) : Prop :=
  track rp o l o' /\ (zlen bs <= 65535 -> shrinks o o') /\ (is_Some (om o) -> is_Some (om o')).

Lemma ptrack_refl o : owf o -> ptrack o [] o.
Proof. intros H. split; [apply track_refl, H|]. split; [intros _; apply shrinks_refl|auto]. Qed.
Lemma ptrack_trans o1 l1 o2 l2 o3 : ptrack o1 l1 o2 -> ptrack o2 l2 o3 -> ptrack o1 (l1 ++ l2) o3.
Proof.
  intros (H1 & H2 & H3) (H4 & H5 & H6). split; [eapply track_trans; eassumption|]. split; [|auto]. intros H. eapply shrinks_trans; eauto.
Qed.

Lemma dec_upd_ptrack o f p : owf o -> 0 <= f < zlen (oa o) -> 0 <= p < zlen bs -> exists o', dec_upd rp o f p = Ok o' /\ ptrack o [(f, p)] o'.
Proof.
  intros Hwf Hf Hp. pose proof Hl as Hl'. change (2 ^ 62) with 4611686018427387904 in Hl'.
  destruct (dec_upd_track rp o f p Hwf Hf ltac:(pows; lia)) as (o' & Hu & Ht). exists o'. split; [exact Hu|]. split; [exact Ht|]. split.
  - intros Hs. revert Hu. unfold dec_upd. destruct (is_repeated rp f).
    + destruct (offsets_get o f) as [[? []]| | |]; cbn [rbind]; try discriminate; [intros [= <-]; apply shrinks_refl|]. intros E. eapply offsets_set_shrinks; [exact E|lia].
    + intros E. eapply offsets_set_shrinks; [exact E|lia].
  - intros Hs. unfold dec_upd in Hu. destruct (dec_upd_res rp o f p) as [E|(o1 & E & Ho)]; rewrite Hu in E; [discriminate|]. injection E as <-. auto.
Qed.

Lemma p_loop_tag fuel b i o tag k :
  0 <= i < zlen bs -> reads_varint (at_pos bs i) tag k -> i + k < zlen bs ->
  p_decode_loop (S fuel) bs rp i (b, o) =
    match dec_upd rp o (tag / 8) (u64 (i + k)) with
    | Ok o =>
      match slice_from bs (i + k) with
      | Ok c =>
        match fieldDataSize (tag mod 8) c with
        | Ok s => if s =? 0 then (Ok (Some ErrUnexpectedEOF), (b, o)) else p_decode_loop fuel bs rp (i64 (i + k + s)) (b, o)
        | Panic => (Panic, (b, o)) | PastLen => (PastLen, (b, o)) | OutOfFuel => (OutOfFuel, (b, o))
        end
      | Panic => (Panic, (b, o)) | PastLen => (PastLen, (b, o)) | OutOfFuel => (OutOfFuel, (b, o))
      end
    | Panic => (Panic, (b, o)) | PastLen => (PastLen, (b, o)) | OutOfFuel => (OutOfFuel, (b, o))
    end.
Proof.
  intros Hi Hr Hk1. cbn [p_decode_loop]. replace (i =? zlen bs) with false by lia. replace (zlen bs <? i) with false by lia.
  unfold pbind at 1, pread at 1. rewrite (sl_at bs) by lia. pose proof (reads_small _ _ _ (at_bytes _ _ Hb) Hr) as [Hv Hk].
  pose proof (at_small bs i) as Hal.
  apply reads_uvarint in Hr as [Hu Hn]; [|apply at_bytes, Hb]. rewrite Hu. replace (k =? 0) with false by lia. cbn zeta.
  pose proof Hl as Hl'. change (2 ^ 62) with 4611686018427387904 in Hl'. pows.
  assert (E1 : i64 (i + k) = i + k) by (apply i64_small; pows; lia). rewrite E1.
  assert (E2 : i64 (Z.shiftr tag 3) = tag / 8) by (rewrite shiftr_3; apply i64_small; pows; pose proof (Z.div_pos tag 8 ltac:(lia) ltac:(lia)); pose proof (Z.div_le_upper_bound tag 8 tag ltac:(lia) ltac:(lia)); pose proof (Z.div_lt_upper_bound tag 8 9223372036854775808 ltac:(lia) ltac:(lia)); lia). rewrite E2.
  rewrite land_7. replace (zlen bs <=? i + k) with false by lia.
  fold (PanicDecode.p_upd rp (tag / 8) (u64 (i + k))). unfold pbind at 1. rewrite PanicDecode.p_upd_eq.
  destruct (dec_upd _ _ _ _) as [o'| | |]; try reflexivity. unfold pbind at 1, pread at 1. destruct (slice_from bs (i + k)) as [c| | |]; try reflexivity.
  unfold pbind, pread. destruct (fieldDataSize _ _) as [s| | |]; try reflexivity. destruct (s =? 0); reflexivity.
Qed.

Lemma p_hop_step b i f p j o : hop bs i f p j -> f < zlen (oa o) -> owf o ->
  exists o', ptrack o [(f, p)] o' /\ forall fuel, p_decode_loop (S fuel) bs rp i (b, o) = p_decode_loop fuel bs rp j (b, o').
Proof.
  intros (tag & s & Ht & Hp & -> & Hm & Hs & ->) Hf Hwf. pose proof (tag_field_nonneg _ Hb _ _ _ Ht) as Hf0.
  destruct Ht as (Hi & k & Hr & -> & Hlt). fold (zlen bs) in *.
  pose proof Hl as Hl'. change (2 ^ 62) with 4611686018427387904 in Hl'.
  destruct (dec_upd_ptrack o (tag / 8) (i + k) Hwf ltac:(lia) ltac:(lia)) as (o' & Hu & Htr).
  exists o'. split; [exact Htr|]. intros fuel. rewrite (p_loop_tag fuel b i o tag k Hi Hr Hlt).
  rewrite u64_small by (pows; lia). rewrite Hu. rewrite (sl_at bs) by lia.
  rewrite (size_moves (tag mod 8) (at_pos bs (i + k)) s (at_bytes _ _ Hb)); [|pose proof (at_small bs (i + k)); pows; lia|exact Hm].
  rewrite signed64_i64 in *. replace (i64 s =? 0) with false by lia. f_equal. apply i64_add.
Qed.

Lemma p_walk_loop b n i l j : walk n bs i l j -> forall o, n = zlen (oa o) -> owf o ->
  exists o', ptrack o l o' /\ forall fuel, p_decode_loop (length l + fuel) bs rp i (b, o) = p_decode_loop fuel bs rp j (b, o').
Proof.
  induction 1 as [i|i f p j l k Hh Hf Hw IH]; intros o Hn Hwf.
  - exists o. split; [apply ptrack_refl, Hwf|reflexivity].
  - destruct (p_hop_step b _ _ _ _ o Hh ltac:(lia) Hwf) as (o1 & Ht1 & He1).
    destruct (IH o1) as (o2 & Ht2 & He2); [destruct Ht1 as ((_ & E & _) & _); lia|apply Ht1|].
    exists o2. split; [exact (ptrack_trans _ _ _ _ _ Ht1 Ht2)|]. intros fuel. cbn [length Nat.add]. rewrite He1. apply He2.
Qed.

Lemma p_fail_step b i l o fuel : fails_with (zlen (oa o)) bs i l -> owf o ->
  exists o', ptrack o l o' /\ p_decode_loop (S fuel) bs rp i (b, o) = (Panic, (b, o')).
Proof.
  pose proof Hl as Hl'. change (2 ^ 62) with 4611686018427387904 in Hl'.
  intros Hc Hwf. destruct Hc as [Hc|tag p Ht Hf|tag p Ht Hp Hf H0 H1 H2 H5].
  - exists o. split; [apply ptrack_refl, Hwf|]. cbn [p_decode_loop]. pose proof (zlen_nonneg bs). replace (i =? zlen bs) with false by lia. replace (zlen bs <? i) with false by lia.
    unfold pbind at 1, pread at 1. unfold slice_from. replace ((0 <=? i) && (i <=? zlen bs)) with false by lia. reflexivity.
  - exists o. split; [apply ptrack_refl, Hwf|]. destruct Ht as (Hi & k & Hr & -> & Hlt). fold (zlen bs) in *. rewrite (p_loop_tag fuel b i o tag k Hi Hr Hlt).
    rewrite dec_upd_out; [reflexivity|]. unfold in_range. lia.
  - pose proof (tag_field_nonneg _ Hb _ _ _ Ht) as Hf0. destruct Ht as (Hi & k & Hr & -> & Hlt). fold (zlen bs) in *.
    destruct (dec_upd_ptrack o (tag / 8) (i + k) Hwf ltac:(lia) ltac:(lia)) as (o' & Hu & Htr).
    exists o'. split; [exact Htr|]. rewrite (p_loop_tag fuel b i o tag k Hi Hr Hlt).
    rewrite u64_small by (pows; lia). rewrite Hu. rewrite (sl_at bs) by lia. rewrite size_bad by assumption. reflexivity.
Qed.

Lemma pbind_ext {A B} (x : M A) (k1 k2 : A -> M B) s : fst (pbind x k1 s) <> OutOfFuel ->
  (forall a s', x s = (Ok a, s') -> fst (k1 a s') <> OutOfFuel -> k2 a s' = k1 a s') -> pbind x k2 s = pbind x k1 s.
Proof. unfold pbind. intros H1 H2. destruct (x s) as [[a| | |] s']; try reflexivity. apply H2; [reflexivity|exact H1]. Qed.

Lemma p_loop_more k : forall i s, fst (p_decode_loop k bs rp i s) <> OutOfFuel -> p_decode_loop (S k) bs rp i s = p_decode_loop k bs rp i s.
Proof.
  induction k as [|k IH]; intros i s H; [cbn in H; done|]. revert H. remember (S k) as k' eqn:Ek. rewrite Ek at 1 3. cbn [p_decode_loop].
  destruct (i =? zlen bs); [reflexivity|]. destruct (zlen bs <? i); [reflexivity|]. intros H. apply pbind_ext; [exact H|]. clear H. intros c s1 _.
  destruct (uvarint c) as [tag size]. destruct (size =? 0); [reflexivity|]. cbn zeta. destruct (zlen bs <=? i64 (i + size)); [reflexivity|].
  intros H. apply pbind_ext; [exact H|]. clear H. intros u s2 _ H. apply pbind_ext; [exact H|]. clear H. intros c2 s3 _ H. apply pbind_ext; [exact H|]. clear H. intros n s4 _.
  destruct (n =? 0); [reflexivity|]. intros H. subst k'. apply IH, H.
Qed.
Lemma p_loop_le k d i s : fst (p_decode_loop k bs rp i s) <> OutOfFuel -> p_decode_loop (d + k) bs rp i s = p_decode_loop k bs rp i s.
Proof. intros H. induction d as [|d IH]; [reflexivity|]. cbn [Nat.add]. rewrite p_loop_more; [exact IH|]. rewrite IH. exact H. Qed.
Lemma p_loop_same k1 k2 i s : fst (p_decode_loop k1 bs rp i s) <> OutOfFuel -> fst (p_decode_loop k2 bs rp i s) <> OutOfFuel ->
  p_decode_loop k1 bs rp i s = p_decode_loop k2 bs rp i s.
Proof.
  intros H1 H2. destruct (Nat.le_ge_cases k1 k2).
  - replace k2 with (k2 - k1 + k1)%nat by lia. symmetry. apply p_loop_le, H1.
  - replace k1 with (k1 - k2 + k2)%nat by lia. apply p_loop_le, H2.
Qed.

(** A Decode that panics has stored the positions of the records it had passed. *)
Lemma p_decode_panics mt b o l j l2 : SpecScan.walk (zlen (oa o)) bs 0 l j -> fails_with (zlen (oa o)) bs j l2 -> GenApi.reps mt = rp ->
  fst (p_Decode mt bs (b, o)) = Panic -> exists o', p_Decode mt bs (b, o) = (Panic, (bs, o')) /\ ptrack (offsets_clear o) (l ++ l2) o'.
Proof.
  intros Hw Hf Er.
  assert (E0 : p_Decode mt bs (b, o) = p_decode_loop (fuel_of bs) bs rp 0 (bs, offsets_clear o)) by (rewrite <- Er; reflexivity). rewrite E0. intros HP.
  destruct (offsets_clear_ok o) as (Hwf & Hlc & _).
  destruct (p_walk_loop bs _ _ _ _ Hw (offsets_clear o) ltac:(lia) Hwf) as (o1 & T1 & E1).
  assert (Hn1 : zlen (oa o1) = zlen (oa o)) by (destruct T1 as ((_ & E & _) & _); lia).
  destruct (p_fail_step bs j l2 o1 0 ltac:(rewrite Hn1; exact Hf) ltac:(apply T1)) as (o2 & T2 & E2).
  exists o2. split; [|eapply ptrack_trans; eassumption].
  rewrite <- E2, <- E1. apply p_loop_same; [rewrite HP|rewrite E1, E2]; discriminate.
Qed.
End PDecode.
