(** * [fuel_of] is enough: more iterations never change an outcome, and a loop
    that has not finished within [len + 2] iterations never finishes. *)
From Verif Require Import Runtime VarintFacts OffsetsFacts DecodeFacts GenApi.
From Coq Require Import ZifyBool.

Section Pigeonhole.
Context (nxt : Z -> option Z) (len : nat).
Hypothesis nxt_range : forall x y, nxt x = Some y -> 0 <= x < Z.of_nat len.

Fixpoint iter (k : nat) (x : Z) : option Z :=
  match k with
  | O => Some x
  | S k => match nxt x with None => None | Some y => iter k y end
  end.

Definition exact (m : nat) (x : Z) : Prop :=
  iter m x = None /\ forall m', (m' < m)%nat -> iter m' x <> None.

Lemma exact_fun m m' x : exact m x -> exact m' x -> m = m'.
Proof.
  intros [H1 H2] [H1' H2']. destruct (lt_eq_lt_dec m m') as [[Hlt|He]|Hgt]; [|exact He|].
  - exfalso. eapply H2'; eassumption.
  - exfalso. eapply H2; eassumption.
Qed.

Lemma iter_mono m : forall n x, (m <= n)%nat -> iter m x = None -> iter n x = None.
Proof.
  induction m as [|m IH]; intros n x Hm Hn; [discriminate|].
  destruct n as [|n]; [lia|]. cbn [iter] in *. destruct (nxt x) as [y|]; [|reflexivity]. apply (IH n); [lia|exact Hn].
Qed.

Lemma exact_exists k x : iter k x = None -> exists m, (m <= k)%nat /\ exact m x.
Proof.
  induction k as [|k IH]; intros Hk; [discriminate|].
  destruct (iter k x) as [y|] eqn:E.
  - exists (S k). split; [lia|]. split; [exact Hk|]. intros m' Hm' Hn.
    rewrite (iter_mono m' k x) in E; [discriminate|lia|exact Hn].
  - destruct (IH eq_refl) as (m & Hm & He). exists m. split; [lia|exact He].
Qed.

Lemma exact_trace m x :
  exact (S m) x ->
  exists l, NoDup l /\ length l = m /\
    forall y, y ∈ l -> 0 <= y < Z.of_nat len /\ exists j, (j <= S m)%nat /\ exact j y.
Proof.
  revert x. induction m as [|m IH]; intros x He.
  - exists []. split_and!; [constructor|reflexivity|]. intros y Hy. inversion Hy.
  - pose proof He as [H1 H2]. cbn [iter] in H1. destruct (nxt x) as [y|] eqn:Hx.
    + assert (Hy : exact (S m) y).
      { split; [exact H1|]. intros m' Hm' Hn. apply (H2 (S m')); [lia|]. cbn [iter]. rewrite Hx. exact Hn. }
      destruct (IH y Hy) as (l & Hnd & Hl & Hall). exists (x :: l). split_and!.
      * constructor; [|exact Hnd]. intros Hin. destruct (Hall x Hin) as (_ & j & Hj & Hej).
        pose proof (exact_fun _ _ _ He Hej). lia.
      * cbn. lia.
      * intros z Hz. apply elem_of_cons in Hz as [->|Hz].
        -- split; [eapply nxt_range, Hx|]. exists (S (S m)). split; [lia|exact He].
        -- destruct (Hall z Hz) as (Hr & j & Hj & Hej). split; [exact Hr|]. exists j. split; [lia|exact Hej].
    + exfalso. apply (H2 1%nat); [lia|]. cbn [iter]. rewrite Hx. reflexivity.
Qed.

Lemma nodup_range l : NoDup l -> (forall y, y ∈ l -> 0 <= y < Z.of_nat len) -> (length l <= len)%nat.
Proof.
  intros Hnd Hr. replace len with (length (seqZ 0 (Z.of_nat len))) by (rewrite seqZ_length; lia).
  apply submseteq_length, NoDup_submseteq; [exact Hnd|]. intros y Hy. apply elem_of_seqZ. specialize (Hr y Hy). lia.
Qed.

Lemma iter_bound k x : iter k x = None -> iter (S len) x = None.
Proof.
  intros Hk. destruct (exact_exists k x Hk) as (m & _ & He).
  assert (Hm : (m <= S len)%nat).
  { destruct m as [|m]; [lia|]. destruct (exact_trace m x He) as (l & Hnd & Hl & Hall).
    pose proof (nodup_range l Hnd (fun y Hy => proj1 (Hall y Hy))). lia. }
  destruct He as [Hn _]. eapply iter_mono; eassumption.
Qed.
End Pigeonhole.

(** ** Decode *)

(** Where one iteration goes next, if it goes on. *)
Definition decode_next (buf : list Z) (n : Z) (idx : Z) : option Z :=
  if idx =? zlen buf then None
  else if zlen buf <? idx then None
  else
    match slice_from buf idx with
    | Ok b =>
      let '(tag, size) := uvarint b in
      if size =? 0 then None
      else
        let idx := i64 (idx + size) in
        if zlen buf <=? idx then None
        else
          let fieldID := i64 (Z.shiftr tag 3) in
          if (0 <=? fieldID) && (fieldID <? n) then
            match slice_from buf idx with
            | Ok b => match fieldDataSize (Z.land tag 7) b with
                      | Ok s => if s =? 0 then None else Some (i64 (idx + s))
                      | _ => None
                      end
            | _ => None
            end
          else None
    | _ => None
    end.

Lemma decode_next_range buf n x y : decode_next buf n x = Some y -> 0 <= x < Z.of_nat (length buf).
Proof.
  unfold decode_next. fold (zlen buf).
  destruct (Z.eqb_spec x (zlen buf)); [discriminate|].
  destruct (Z.ltb_spec (zlen buf) x); [discriminate|].
  unfold slice_from at 1. destruct ((0 <=? x) && (x <=? zlen buf)) eqn:E; [|discriminate]. lia.
Qed.

Lemma dec_upd_total reps o f x :
  (exists o', dec_upd reps o f x = Ok o' /\ in_range o f /\ zlen (oa o') = zlen (oa o)) \/
  (dec_upd reps o f x = Panic /\ ~ in_range o f).
Proof.
  destruct (decide (0 <= f < zlen (oa o))) as [Hr|Hr].
  - left. unfold dec_upd, offsets_get, offsets_set.
    destruct (arr_get_range (oa o) f Hr) as (y & Hy & Hg). rewrite !Hg. cbn [rbind].
    rewrite !arr_set_ok by exact Hr. cbn [rbind].
    assert (Hset : True -> exists o', (if x <=? offsetMaxInArray
        then Ok (mkOffsets (<[Z.to_nat f:=u16 x]> (oa o)) (if y =? offsetInMap then map_delete (om o) f else om o))
        else Ok (mkOffsets (<[Z.to_nat f:=offsetInMap]> (oa o)) (Some (<[f:=x]> match om o with Some m => m | None => ∅ end)))) = Ok o'
        /\ in_range o f /\ zlen (oa o') = zlen (oa o)).
    { intros _. destruct (x <=? offsetMaxInArray); eexists; (split; [reflexivity|]); (split; [exact Hr|]);
        cbn [oa]; apply zlen_insert. }
    destruct (is_repeated reps f); [|apply (Hset I)].
    destruct (negb (y =? offsetInMap)); cbn [rbind].
    + destruct (negb (y =? offsetUnset)); [|apply (Hset I)].
      exists o. split_and!; [reflexivity|exact Hr|reflexivity].
    + exists o. split_and!; [reflexivity|exact Hr|reflexivity].
  - right. split; [|exact Hr]. unfold dec_upd.
    rewrite offsets_get_out, offsets_set_out by exact Hr. destruct (is_repeated _ _); reflexivity.
Qed.

(** One iteration either ends with an outcome other than [OutOfFuel],
    independently of the remaining fuel, or continues at [decode_next]. *)
Lemma decode_iter buf reps idx o :
  match decode_next buf (zlen (oa o)) idx with
  | Some y => exists o', zlen (oa o') = zlen (oa o) /\
      forall fuel, decode_loop (S fuel) buf reps idx o = decode_loop fuel buf reps y o'
  | None => exists r, r <> OutOfFuel /\ forall fuel, decode_loop (S fuel) buf reps idx o = r
  end.
Proof.
  unfold decode_next. cbn [decode_loop].
  destruct (Z.eqb_spec idx (zlen buf)). { eexists. split; [|reflexivity]. discriminate. }
  destruct (Z.ltb_spec (zlen buf) idx). { eexists. split; [|reflexivity]. discriminate. }
  assert (Hsf : forall i, (exists b, slice_from buf i = Ok b) \/ slice_from buf i = Panic).
  { intros i. unfold slice_from. destruct (_ && _); eauto. }
  destruct (Hsf idx) as [[b Hb]|Hb]; rewrite Hb; cbn [rbind]; [|eexists; split; [|reflexivity]; discriminate].
  destruct (uvarint b) as [tag size]. destruct (size =? 0). { eexists. split; [|reflexivity]. discriminate. }
  cbn zeta.
  destruct (Z.leb_spec (zlen buf) (i64 (idx + size))). { eexists. split; [|reflexivity]. discriminate. }
  fold (dec_upd reps o (i64 (Z.shiftr tag 3)) (u64 (i64 (idx + size)))).
  destruct (dec_upd_total reps o (i64 (Z.shiftr tag 3)) (u64 (i64 (idx + size)))) as [(o' & Hd & Hr & Hl)|[Hd Hr]];
    rewrite Hd; cbn [rbind]; unfold in_range in Hr.
  - replace ((0 <=? i64 (Z.shiftr tag 3)) && (i64 (Z.shiftr tag 3) <? zlen (oa o))) with true by lia.
    destruct (Hsf (i64 (idx + size))) as [[b2 Hb2]|Hb2]; rewrite Hb2; cbn [rbind]; [|eexists; split; [|reflexivity]; discriminate].
    destruct (fieldDataSize (Z.land tag 7) b2) as [s| | |] eqn:Hs; cbn [rbind];
      [|eexists; split; [|reflexivity]; discriminate..|].
    + destruct (s =? 0). { eexists. split; [|reflexivity]. discriminate. }
      exists o'. split; [exact Hl|reflexivity].
    + exfalso. unfold fieldDataSize in Hs. repeat case_match; discriminate.
  - replace ((0 <=? i64 (Z.shiftr tag 3)) && (i64 (Z.shiftr tag 3) <? zlen (oa o))) with false by lia.
    eexists. split; [|reflexivity]. discriminate.
Qed.

Lemma decode_fuel_iff buf reps fuel : forall idx o,
  decode_loop fuel buf reps idx o = OutOfFuel <-> iter (decode_next buf (zlen (oa o))) fuel idx <> None.
Proof.
  induction fuel as [|fuel IH]; intros idx o.
  - cbn. split; [discriminate|reflexivity].
  - pose proof (decode_iter buf reps idx o) as Hd. cbn [iter].
    destruct (decode_next buf (zlen (oa o)) idx) as [y|].
    + destruct Hd as (o' & Hl & Hd). rewrite Hd, IH, Hl. reflexivity.
    + destruct Hd as (r & Hr & Hd). rewrite Hd. split; congruence.
Qed.

Lemma decode_mono buf reps fuel : forall fuel' idx o,
  (fuel <= fuel')%nat -> decode_loop fuel buf reps idx o <> OutOfFuel ->
  decode_loop fuel' buf reps idx o = decode_loop fuel buf reps idx o.
Proof.
  induction fuel as [|fuel IH]; intros fuel' idx o Hle Hne; [exfalso; apply Hne; reflexivity|].
  destruct fuel' as [|fuel']; [lia|].
  pose proof (decode_iter buf reps idx o) as Hd.
  destruct (decode_next buf (zlen (oa o)) idx) as [y|].
  - destruct Hd as (o' & Hl & Hd). rewrite !Hd in *. apply IH; [lia|exact Hne].
  - destruct Hd as (r & Hr & Hd). rewrite !Hd. reflexivity.
Qed.

Lemma decode_fuel_enough fuel buf o reps :
  (fuel_of buf <= fuel)%nat -> Decode fuel buf o reps = Decode (fuel_of buf) buf o reps.
Proof.
  intros Hle. unfold Decode.
  destruct (decode_loop (fuel_of buf) buf reps 0 (offsets_clear o)) as [a| | |] eqn:E.
  1-3: rewrite <- E; apply decode_mono; [exact Hle|rewrite E; discriminate].
  apply decode_fuel_iff. intros Hn. apply decode_fuel_iff in E. apply E.
  assert (Hb : iter (decode_next buf (zlen (oa (offsets_clear o)))) (S (length buf)) 0 = None).
  { eapply iter_bound; [apply decode_next_range|exact Hn]. }
  unfold fuel_of. clear -Hb. revert Hb. generalize (S (length buf)) as k, 0 as x.
  induction k as [|k IH]; intros x Hb; [discriminate|]. cbn [iter] in *.
  destruct (decode_next _ _ x); [|reflexivity]. apply IH, Hb.
Qed.

(** ** FindNextField *)
Definition find_next (buf : list Z) (field idx : Z) : option Z :=
  if idx <? zlen buf then
    match slice_from buf idx with
    | Ok b =>
      let '(tag, size) := uvarint b in
      let idx := i64 (idx + size) in
      if i64 (Z.shiftr tag 3) =? field then None
      else match slice_from buf idx with
           | Ok b => match fieldDataSize (Z.land tag 7) b with
                     | Ok s => Some (i64 (idx + s))
                     | _ => None
                     end
           | _ => None
           end
    | _ => None
    end
  else None.

Lemma find_next_range buf f x y : find_next buf f x = Some y -> 0 <= x < Z.of_nat (length buf).
Proof.
  unfold find_next. fold (zlen buf). destruct (Z.ltb_spec x (zlen buf)); [|discriminate].
  unfold slice_from at 1. destruct ((0 <=? x) && (x <=? zlen buf)) eqn:E; [|discriminate]. lia.
Qed.

Lemma find_iter buf field idx :
  match find_next buf field idx with
  | Some y => forall fuel, find_loop (S fuel) buf field idx = find_loop fuel buf field y
  | None => exists r, r <> OutOfFuel /\ forall fuel, find_loop (S fuel) buf field idx = r
  end.
Proof.
  unfold find_next. cbn [find_loop].
  destruct (Z.ltb_spec idx (zlen buf)); [|eexists; split; [|reflexivity]; discriminate].
  assert (Hsf : forall i, (exists b, slice_from buf i = Ok b) \/ slice_from buf i = Panic).
  { intros i. unfold slice_from. destruct (_ && _); eauto. }
  destruct (Hsf idx) as [[b Hb]|Hb]; rewrite Hb; cbn [rbind]; [|eexists; split; [|reflexivity]; discriminate].
  destruct (uvarint b) as [tag size]. cbn zeta.
  destruct (i64 (Z.shiftr tag 3) =? field).
  - destruct (Hsf (i64 (idx + size))) as [[b2 Hb2]|Hb2]; rewrite Hb2; cbn [rbind]; eexists; (split; [|reflexivity]); discriminate.
  - destruct (Hsf (i64 (idx + size))) as [[b2 Hb2]|Hb2]; rewrite Hb2; cbn [rbind]; [|eexists; split; [|reflexivity]; discriminate].
    destruct (fieldDataSize (Z.land tag 7) b2) as [s| | |] eqn:Hs; cbn [rbind];
      [reflexivity|eexists; split; [|reflexivity]; discriminate..|].
    exfalso. unfold fieldDataSize in Hs. repeat case_match; discriminate.
Qed.

Lemma find_fuel_iff buf field fuel : forall idx,
  find_loop fuel buf field idx = OutOfFuel <-> iter (find_next buf field) fuel idx <> None.
Proof.
  induction fuel as [|fuel IH]; intros idx.
  - cbn. split; [discriminate|reflexivity].
  - pose proof (find_iter buf field idx) as Hd. cbn [iter].
    destruct (find_next buf field idx) as [y|].
    + rewrite Hd, IH. reflexivity.
    + destruct Hd as (r & Hr & Hd). rewrite Hd. split; congruence.
Qed.

Lemma find_mono buf field fuel : forall fuel' idx,
  (fuel <= fuel')%nat -> find_loop fuel buf field idx <> OutOfFuel ->
  find_loop fuel' buf field idx = find_loop fuel buf field idx.
Proof.
  induction fuel as [|fuel IH]; intros fuel' idx Hle Hne; [exfalso; apply Hne; reflexivity|].
  destruct fuel' as [|fuel']; [lia|].
  pose proof (find_iter buf field idx) as Hd.
  destruct (find_next buf field idx) as [y|].
  - rewrite !Hd in *. apply IH; [lia|exact Hne].
  - destruct Hd as (r & Hr & Hd). rewrite !Hd. reflexivity.
Qed.

Lemma find_fuel_enough fuel it field :
  (find_fuel it <= fuel)%nat -> FindNextField fuel it field = FindNextField (find_fuel it) it field.
Proof.
  destruct it as [buf|]; [|reflexivity]. cbn [find_fuel]. intros Hle. unfold FindNextField.
  destruct (uvarint buf) as [msgLen lenSize].
  destruct (slice_range buf lenSize _) as [m| | |]; cbn [rbind]; try reflexivity.
  set (idx := i64 (lenSize + i64 msgLen)).
  assert (He : find_loop fuel buf field idx = find_loop (fuel_of buf) buf field idx); [|rewrite He; reflexivity].
  destruct (find_loop (fuel_of buf) buf field idx) as [a| | |] eqn:E.
  1-3: rewrite <- E; apply find_mono; [exact Hle|rewrite E; discriminate].
  apply find_fuel_iff. intros Hn. apply find_fuel_iff in E. apply E.
  assert (Hb : iter (find_next buf field) (S (length buf)) idx = None).
  { eapply iter_bound; [apply find_next_range|exact Hn]. }
  unfold fuel_of. clear -Hb. revert Hb. generalize (S (length buf)) as k, idx as x.
  induction k as [|k IH]; intros x Hb; [discriminate|]. cbn [iter] in *.
  destruct (find_next _ _ x); [|reflexivity]. apply IH, Hb.
Qed.
