(** * FindNextField and the iterators on a laid-out message *)
From Verif Require Import Runtime Spec VarintFacts OffsetsFacts RecFacts GenApi Fuel.
From Coq Require Import ZifyBool.

(** The rest of the message from the payload of the next record of field [f]. *)
Fixpoint next_rest (f : Z) (cs : list crec) : option (list Z) :=
  match cs with
  | [] => None
  | c :: cs => if cf c =? f then Some (cp c ++ flat cs) else next_rest f cs
  end.

Lemma length_flat cs : Forall cvalid cs -> (length cs <= length (flat cs))%nat.
Proof.
  induction 1 as [|c cs [Ht Hp] Hcs IH]; cbn [length flat]; [lia|].
  apply tag_len in Ht. unfold cbytes. rewrite !app_length. unfold zlen in Ht. lia.
Qed.

Lemma find_loop_ok f post : forall pre fuel,
  Forall cvalid post -> zlen (pre ++ flat post) < 2 ^ 63 -> (length post < fuel)%nat ->
  find_loop fuel (pre ++ flat post) f (zlen pre) = Ok (next_rest f post).
Proof.
  induction post as [|c post IH]; intros pre fuel Hv Hlen Hfuel; (destruct fuel as [|fuel]; [lia|]).
  - cbn [flat find_loop next_rest]. rewrite app_nil_r. replace (zlen pre <? zlen pre) with false by lia. reflexivity.
  - apply Forall_cons in Hv as [[Ht Hp] Hv].
    pose proof (tag_len _ _ Ht) as Htl. pose proof (payload_len_pos _ _ Hp) as Hpl.
    cbn [flat find_loop next_rest]. cbn [flat] in Hlen. unfold cbytes in *.
    rewrite <- !app_assoc in *. rewrite !zlen_app in *.
    pose proof (zlen_nonneg pre). pose proof (zlen_nonneg (flat post)).
    replace (zlen pre <? _) with true by lia. rewrite slice_from_app. cbn [rbind].
    rewrite (uvarint_spec _ _ (cp c ++ flat post) (proj2 Ht)).
    destruct (tag_field _ _ Ht) as (_ & -> & ->). cbn [crecord fst snd]. cbn zeta.
    rewrite (i64_small (zlen pre + zlen (ct c))) by lia.
    assert (Hsf : slice_from (pre ++ ct c ++ cp c ++ flat post) (zlen pre + zlen (ct c)) = Ok (cp c ++ flat post)).
    { rewrite app_assoc. apply slice_from_app'. rewrite zlen_app. reflexivity. }
    rewrite Hsf. cbn [rbind]. destruct (cf c =? f); [reflexivity|].
    rewrite (fieldDataSize_ok (cw c) (cp c) (flat post) Hp) by lia. cbn [rbind].
    rewrite i64_small by lia.
    replace (pre ++ ct c ++ cp c ++ flat post) with ((pre ++ ct c ++ cp c) ++ flat post) by (rewrite <- !app_assoc; reflexivity).
    replace (zlen pre + zlen (ct c) + zlen (cp c)) with (zlen (pre ++ ct c ++ cp c)) by (rewrite !zlen_app; lia).
    cbn [length] in Hfuel. apply IH; [exact Hv| |lia]. rewrite !zlen_app. lia.
Qed.

Lemma FindNextField_ok f x pb post :
  payload_enc (WBytes x) pb -> Forall cvalid post -> zlen (pb ++ flat post) < 2 ^ 63 ->
  FindNextField (find_fuel (Some (pb ++ flat post))) (Some (pb ++ flat post)) f = Ok (next_rest f post, Some x).
Proof.
  intros (lb & -> & Hv & Hb) Hpost Hlen. unfold FindNextField. cbn [find_fuel]. rewrite <- !app_assoc in *.
  rewrite (uvarint_spec _ _ (x ++ flat post) Hv). fold (zlen x).
  pose proof (is_varint_len _ _ Hv). pose proof (zlen_nonneg x). pose proof (zlen_nonneg (flat post)).
  rewrite !zlen_app in Hlen.
  rewrite (i64_small (zlen x)) by lia. rewrite i64_small by lia.
  rewrite slice_range_app by lia. cbn [rbind].
  replace (lb ++ x ++ flat post) with ((lb ++ x) ++ flat post) by (rewrite <- app_assoc; reflexivity).
  replace (zlen lb + zlen x) with (zlen (lb ++ x)) by apply zlen_app.
  rewrite find_loop_ok; [reflexivity|exact Hpost|rewrite !zlen_app; lia|].
  unfold fuel_of. rewrite app_length. pose proof (length_flat post Hpost). lia.
Qed.

(** The same, giving up after [n] of them. *)
Fixpoint decode_upto (n : nat) (mt : mtype) (m : msg) (xs : list (list Z)) : res (list (option error * msg)) :=
  match n with
  | O => OutOfFuel
  | S n =>
    match xs with
    | [] => Ok []
    | x :: xs =>
      let* (err, m) := m_Decode mt m x in
      let* l := decode_upto n mt m xs in Ok ((err, m) :: l)
    end
  end.

Lemma decode_upto_each n mt m xs : (length xs < n)%nat -> decode_upto n mt m xs = decode_each mt m xs.
Proof.
  revert n m. induction xs as [|x xs IH]; intros n m Hn; (destruct n as [|n]; [lia|]); [reflexivity|].
  cbn [decode_upto decode_each length] in *. destruct (m_Decode mt m x) as [[e m']| | |]; cbn [rbind]; try reflexivity.
  rewrite IH by lia. reflexivity.
Qed.

Definition all_bytes (f : Z) (cs : list crec) : Prop :=
  forall c, c ∈ cs -> cf c = f -> exists x, cw c = WBytes x.

Lemma iterate_rest mt f : forall n cs m,
  Forall cvalid cs -> all_bytes f cs -> zlen (flat cs) < 2 ^ 63 ->
  iterate n mt (next_rest f cs) f m = decode_upto n mt m (read_repeated (occ f (map crecord cs))).
Proof.
  intros n cs. revert n. induction cs as [|c cs IH]; intros n m Hv Hb Hlen; (destruct n as [|n]; [reflexivity|]).
  - reflexivity.
  - cbn [map occ crecord next_rest] in *. apply Forall_cons in Hv as [[Ht Hp] Hv].
    cbn [flat] in Hlen. unfold cbytes in Hlen. rewrite !zlen_app in Hlen.
    pose proof (zlen_nonneg (ct c)). pose proof (zlen_nonneg (cp c)). pose proof (zlen_nonneg (flat cs)).
    assert (Hb' : all_bytes f cs) by (intros c' Hc'; apply Hb; right; exact Hc').
    destruct (Z.eqb_spec (cf c) f) as [Hc|Hc]; [|apply IH; [assumption..|lia]].
    destruct (Hb c ltac:(left) Hc) as [x Hx]. rewrite Hx in *. cbn [iterate]. unfold it_Next.
    rewrite FindNextField_ok with (x := x) by (try assumption; rewrite zlen_app; lia). cbn [rbind].
    cbn [read_repeated map bytes_of decode_upto].
    destruct (m_Decode mt m x) as [[err m']| | |]; cbn [rbind]; try reflexivity.
    rewrite (IH n m') by (try assumption; lia). reflexivity.
Qed.

(** The iterator method starts at the first occurrence. *)
Lemma m_Iter_ok reps o cs f :
  Forall cvalid cs -> owf o -> indexes reps o cs -> in_range o f -> is_repeated reps f = true ->
  m_Iter (mkMsg (flat cs) o) f = Ok (next_rest f cs).
Proof.
  intros Hv Hwf Hi Hr Hrep. unfold m_Iter, GetRepeatedNonPacked. cbn [mbuf moff].
  pose proof (Hi f Hr) as Ho. unfold pick in Ho. rewrite Hrep in Ho.
  destruct (decide (occ f (map crecord cs) = [])) as [Hocc|Hocc].
  - rewrite (proj2 (poss_nil_iff f 0 cs) Hocc) in Ho. cbn in Ho.
    unfold with_offset. pose proof (offsets_get_eq o f Hwf Hr) as Hg. rewrite Ho in Hg. rewrite Hg. cbn [rbind].
    f_equal. clear -Hocc. induction cs as [|c cs IH]; cbn [next_rest map occ crecord] in *; [reflexivity|].
    destruct (cf c =? f); [discriminate|apply IH, Hocc].
  - destruct (split_first f cs Hocc) as (pre & c & post & -> & Hc & Hpre).
    rewrite poss_app, (proj2 (poss_nil_iff f 0 pre) Hpre) in Ho. cbn [poss app] in Ho.
    rewrite Hc, Z.eqb_refl in Ho. cbn [head] in Ho. rewrite Z.add_0_l in Ho.
    unfold with_offset. pose proof (offsets_get_eq o f Hwf Hr) as Hg. rewrite Ho in Hg. rewrite Hg. cbn [rbind].
    rewrite flat_app. cbn [flat]. unfold cbytes.
    replace (flat pre ++ (ct c ++ cp c) ++ flat post) with ((flat pre ++ ct c) ++ cp c ++ flat post)
      by (rewrite <- !app_assoc; reflexivity).
    rewrite slice_from_app' by (rewrite zlen_app; reflexivity). cbn [rbind].
    f_equal. clear -Hpre Hc. induction pre as [|c' pre IH]; cbn [next_rest map occ crecord app] in *.
    + rewrite Hc, Z.eqb_refl. reflexivity.
    + destruct (cf c' =? f); [discriminate|apply IH, Hpre].
Qed.
