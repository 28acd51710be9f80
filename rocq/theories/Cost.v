(** * How often the loops of Decode and FindNextField run; what they look at *)
From Verif Require Import Api.
From Verif Require Export SpecCost.
From Verif Require Import VarintFacts OffsetsFacts RecFacts DecodeFacts GetFacts IterFacts ApiFacts ApiInv Core.
From Coq Require Import ZifyBool.

(** ** Decode *)
Lemma decode_short cs : forall fuel pre rest reps o,
  Forall cvalid cs -> zlen (pre ++ flat cs ++ rest) < 2 ^ 63 -> owf o -> (forall c, c ∈ cs -> in_range o (cf c)) ->
  (fuel <= length cs)%nat ->
  decode_loop fuel (pre ++ flat cs ++ rest) reps (zlen pre) o = OutOfFuel.
Proof.
  induction cs as [|c cs IH]; intros fuel pre rest reps o Hv Hl Hwf Hr Hf;
    (destruct fuel as [|fuel]; [reflexivity|]); [cbn [length] in Hf; lia|].
  apply Forall_cons in Hv as [Hc Hv]. cbn [flat] in *. rewrite <- (app_assoc (cbytes c)) in *.
  rewrite decode_step by assumption.
  pose proof Hc as [Ht Hp]. pose proof (tag_len _ _ Ht). pose proof (payload_len_pos _ _ Hp).
  pose proof (zlen_nonneg pre). pose proof (zlen_nonneg (flat cs)). pose proof (zlen_nonneg rest).
  assert (Hlc : zlen (cbytes c) = zlen (ct c) + zlen (cp c)) by (unfold cbytes; apply zlen_app).
  pose proof Hl as Hl2. rewrite !zlen_app in Hl2.
  destruct (dec_upd_ok reps o (cf c) (zlen pre + zlen (ct c)) Hwf) as (o1 & -> & Hwf1 & Hl1 & _);
    [apply Hr; left|pows; lia|]. cbn [rbind].
  rewrite (app_assoc pre). replace (zlen pre + zlen (cbytes c)) with (zlen (pre ++ cbytes c)) by apply zlen_app.
  apply IH; [exact Hv| |exact Hwf1| |cbn [length] in Hf; lia].
  - rewrite <- app_assoc. exact Hl.
  - intros c' Hc'. unfold in_range. rewrite Hl1. apply Hr. right. exact Hc'.
Qed.

Lemma decode_iterations mt m0 rs bs :
  of_type mt m0 -> wire rs bs -> Forall (fun r => r.1 < Z.of_nat (alen mt)) rs -> Z.of_nat (length bs) < 2 ^ 63 ->
  forall fuel, Decode fuel bs (moff m0) (reps mt) = OutOfFuel <-> (fuel <= length rs)%nat.
Proof.
  intros H0 Hw Hr Hl fuel. apply wire_concrete in Hw as (cs & Hv & <- & <-). fold (zlen (flat cs)) in Hl.
  rewrite map_length. apply of_type_zlen in H0. rewrite Forall_map in Hr.
  assert (Hin : forall c, c ∈ cs -> in_range (moff m0) (cf c)).
  { intros c Hc. rewrite Forall_forall in Hv, Hr. specialize (Hr c Hc). cbn in Hr.
    destruct (Hv c Hc) as [[Hge _] _]. cbn in Hge. unfold in_range. lia. }
  split.
  - intros E. destruct (le_lt_dec fuel (length cs)) as [Hle|Hlt]; [exact Hle|].
    destruct (decode_ok fuel cs (reps mt) (moff m0) Hv Hl Hin Hlt) as (o' & E' & _). rewrite E' in E. discriminate E.
  - intros Hf. unfold Decode. destruct (offsets_clear_ok (moff m0)) as (Hwf0 & Hl0 & _).
    pose proof (decode_short cs fuel [] [] (reps mt) (offsets_clear (moff m0)) Hv) as H.
    cbn [app] in H. rewrite app_nil_r in H. apply H; try assumption.
    intros c Hc. unfold in_range. rewrite Hl0. apply Hin, Hc.
Qed.

(** Decode does not look at the contents of length-delimited fields. *)
Lemma decode_skeleton cs : forall cs' fuel pre pre' reps o,
  Forall cvalid cs -> Forall cvalid cs' ->
  Forall2 (fun c c' => cf c = cf c' /\ zlen (ct c) = zlen (ct c') /\ zlen (cp c) = zlen (cp c')) cs cs' ->
  zlen pre = zlen pre' -> zlen (pre ++ flat cs) < 2 ^ 63 ->
  decode_loop fuel (pre ++ flat cs) reps (zlen pre) o = decode_loop fuel (pre' ++ flat cs') reps (zlen pre') o.
Proof.
  induction cs as [|c cs IH]; intros cs' fuel pre pre' reps o Hv Hv' H2 Hp Hl;
    (destruct fuel as [|fuel]; [reflexivity|]).
  - apply Forall2_nil_inv_l in H2 as ->. cbn [flat decode_loop]. rewrite !app_nil_r, !Z.eqb_refl. reflexivity.
  - apply Forall2_cons_inv_l in H2 as (c' & l & (Hf & Ht & Hpl) & H2 & ->).
    apply Forall_cons in Hv as [Hc Hv]. apply Forall_cons in Hv' as [Hc' Hv'].
    cbn [flat] in *.
    assert (Hb : zlen (cbytes c) = zlen (cbytes c')) by (unfold cbytes; rewrite !zlen_app; lia).
    assert (Hlf : zlen (flat cs) = zlen (flat l)).
    { clear -H2. induction H2 as [|a b la lb (H1 & H3 & H4) H2 IH]; [reflexivity|]. cbn [flat]. unfold cbytes. rewrite !zlen_app. lia. }
    pose proof (decode_step fuel pre c (flat cs) reps o Hc Hl) as E1.
    pose proof (decode_step fuel pre' c' (flat l) reps o Hc') as E2.
    rewrite E1, E2 by (rewrite !zlen_app in *; lia). clear E1 E2.
    rewrite Hf, Ht, Hp. destruct (dec_upd reps o (cf c') (zlen pre' + zlen (ct c'))) as [o'| | |]; cbn [rbind]; try reflexivity.
    specialize (IH l fuel (pre ++ cbytes c) (pre' ++ cbytes c') reps o' Hv Hv' H2).
    rewrite !zlen_app, <- !app_assoc in IH. rewrite Hp in IH. rewrite IH; [reflexivity|lia|].
    rewrite !zlen_app in *. lia.
Qed.

Lemma decode_lazy fuel o reps rs1 b1 f x y tb lb rs2 b2 :
  wire rs1 b1 -> tag_enc (f, WBytes x) tb -> is_varint (Z.of_nat (length x)) lb -> wire rs2 b2 ->
  length y = length x -> Forall is_byte x -> Forall is_byte y ->
  Z.of_nat (length (b1 ++ tb ++ lb ++ x ++ b2)) < 2 ^ 63 ->
  Decode fuel (b1 ++ tb ++ lb ++ x ++ b2) o reps = Decode fuel (b1 ++ tb ++ lb ++ y ++ b2) o reps.
Proof.
  intros H1 Ht Hl H2 Hxy Hx Hy Hlen. unfold Decode.
  apply wire_concrete in H1 as (cs1 & Hv1 & _ & <-). apply wire_concrete in H2 as (cs2 & Hv2 & _ & <-).
  assert (E : forall z, flat cs1 ++ tb ++ lb ++ z ++ flat cs2 = [] ++ flat (cs1 ++ mkCrec f (WBytes z) tb (lb ++ z) :: cs2)).
  { intros z. rewrite flat_app. cbn [flat app]. unfold cbytes. cbn [ct cp]. rewrite <- !app_assoc. reflexivity. }
  rewrite !E. apply (decode_skeleton _ _ _ [] []).
  - apply Forall_app. split; [done|]. apply Forall_cons. split; [|done]. split; [done|]. exists lb. cbn. auto.
  - apply Forall_app. split; [done|]. apply Forall_cons. split; [|done]. split; [done|]. exists lb. rewrite Hxy. cbn. auto.
  - apply Forall2_app; [apply Forall_Forall2_diag; apply Forall_true; auto|]. constructor; [|apply Forall_Forall2_diag; apply Forall_true; auto].
    cbn [cf ct cp]. rewrite !zlen_app. unfold zlen. rewrite Hxy. auto.
  - reflexivity.
  - rewrite <- E. exact Hlen.
Qed.

(** ** FindNextField *)
Lemma find_short f post : forall pre fuel,
  Forall cvalid post -> zlen (pre ++ flat post) < 2 ^ 63 ->
  find_loop fuel (pre ++ flat post) f (zlen pre) =
    if (fuel <? distance f (map crecord post))%nat then OutOfFuel else Ok (next_rest f post).
Proof.
  induction post as [|c post IH]; intros pre fuel Hv Hlen; (destruct fuel as [|fuel]; [cbn [map distance find_loop]; try (unfold crecord; destruct (cf _ =? f)); reflexivity|]).
  - cbn [flat find_loop next_rest map distance]. rewrite app_nil_r. replace (zlen pre <? zlen pre) with false by lia. reflexivity.
  - apply Forall_cons in Hv as [[Ht Hp] Hv].
    pose proof (tag_len _ _ Ht) as Htl. pose proof (payload_len_pos _ _ Hp) as Hpl.
    cbn [flat find_loop next_rest map distance crecord]. cbn [flat] in Hlen. unfold cbytes in *.
    rewrite <- !app_assoc in *. rewrite !zlen_app in *.
    pose proof (zlen_nonneg pre). pose proof (zlen_nonneg (flat post)).
    replace (zlen pre <? _) with true by lia. rewrite slice_from_app. cbn [rbind].
    rewrite (uvarint_spec _ _ (cp c ++ flat post) (proj2 Ht)).
    destruct (tag_field _ _ Ht) as (_ & -> & ->). cbn [crecord fst snd]. cbn zeta.
    rewrite (i64_small (zlen pre + zlen (ct c))) by lia.
    assert (Hsf : slice_from (pre ++ ct c ++ cp c ++ flat post) (zlen pre + zlen (ct c)) = Ok (cp c ++ flat post)).
    { rewrite app_assoc. apply slice_from_app'. rewrite zlen_app. reflexivity. }
    rewrite Hsf. cbn [rbind].
    destruct (cf c =? f); [reflexivity|].
    rewrite (fieldDataSize_ok (cw c) (cp c) (flat post) Hp) by lia. cbn [rbind].
    rewrite i64_small by lia.
    replace (pre ++ ct c ++ cp c ++ flat post) with ((pre ++ ct c ++ cp c) ++ flat post) by (rewrite <- !app_assoc; reflexivity).
    replace (zlen pre + zlen (ct c) + zlen (cp c)) with (zlen (pre ++ ct c ++ cp c)) by (rewrite !zlen_app; lia).
    rewrite IH; [reflexivity|exact Hv|]. rewrite !zlen_app. lia.
Qed.

Lemma FindNextField_short f x pb post fuel :
  payload_enc (WBytes x) pb -> Forall cvalid post -> zlen (pb ++ flat post) < 2 ^ 63 ->
  FindNextField fuel (Some (pb ++ flat post)) f =
    if (fuel <? distance f (map crecord post))%nat then OutOfFuel else Ok (next_rest f post, Some x).
Proof.
  intros (lb & -> & Hv & Hb) Hpost Hlen. unfold FindNextField. rewrite <- !app_assoc in *.
  rewrite (uvarint_spec _ _ (x ++ flat post) Hv). fold (zlen x).
  pose proof (is_varint_len _ _ Hv). pose proof (zlen_nonneg x). pose proof (zlen_nonneg (flat post)).
  rewrite !zlen_app in Hlen.
  rewrite (i64_small (zlen x)) by lia. rewrite i64_small by lia.
  rewrite slice_range_app by lia. cbn [rbind].
  replace (lb ++ x ++ flat post) with ((lb ++ x) ++ flat post) by (rewrite <- app_assoc; reflexivity).
  replace (zlen lb + zlen x) with (zlen (lb ++ x)) by apply zlen_app.
  rewrite find_short; [|exact Hpost|rewrite !zlen_app; lia].
  destruct (fuel <? _)%nat; reflexivity.
Qed.

(** The iterator after [k] calls of Next (test.zeropb.go:200-207). *)
Fixpoint iter_after (k : nat) (it : option (list Z)) (f : Z) : res (option (list Z)) :=
  match k with
  | O => Ok it
  | S k => let* (it, _) := FindNextField (find_fuel it) it f in iter_after k it f
  end.

Lemma steps_length f rs : length (steps f rs) = length (occ f rs).
Proof. induction rs as [|[g w] rs IH]; [reflexivity|]. cbn. destruct (g =? f); cbn [length]; rewrite IH; reflexivity. Qed.
Lemma steps_distance f rs : (distance f rs + sum_list (steps f rs) = S (length rs))%nat.
Proof.
  induction rs as [|[g w] rs IH]; [reflexivity|]. cbn [distance steps length]. destruct (g =? f).
  - change (sum_list (distance f rs :: steps f rs)) with (distance f rs + sum_list (steps f rs))%nat. lia.
  - lia.
Qed.
Lemma steps_sum f rs : sum_list (steps f rs) = length (since f rs).
Proof.
  induction rs as [|[g w] rs IH]; [reflexivity|]. cbn [steps since]. destruct (g =? f); [|exact IH].
  change (sum_list (distance f rs :: steps f rs)) with (distance f rs + sum_list (steps f rs))%nat. pose proof (steps_distance f rs). cbn [length]. lia.
Qed.

Lemma iter_steps f : forall cs k n,
  Forall cvalid cs -> all_bytes f cs -> zlen (flat cs) < 2 ^ 63 ->
  steps f (map crecord cs) !! k = Some n ->
  exists it, iter_after k (next_rest f cs) f = Ok it /\
    forall fuel, FindNextField fuel it f = OutOfFuel <-> (fuel < n)%nat.
Proof.
  induction cs as [|c cs IH]; intros k n Hv Hb Hl Hk; [destruct k; discriminate Hk|].
  apply Forall_cons in Hv as [[Ht Hp] Hv]. cbn [flat] in Hl. unfold cbytes in Hl. rewrite !zlen_app in Hl.
  pose proof (zlen_nonneg (ct c)). pose proof (zlen_nonneg (cp c)). pose proof (zlen_nonneg (flat cs)).
  assert (Hb' : all_bytes f cs) by (intros c' Hc'; apply Hb; right; exact Hc').
  cbn [map steps crecord next_rest] in *. destruct (Z.eqb_spec (cf c) f) as [Hcf|Hcf]; [|apply IH; auto; lia].
  destruct (Hb c ltac:(left) Hcf) as [x Hx]. rewrite Hx in Hp.
  assert (Hl2 : zlen (cp c ++ flat cs) < 2 ^ 63) by (rewrite zlen_app; lia).
  destruct k as [|k].
  - cbn in Hk. injection Hk as <-. eexists. split; [reflexivity|]. intros fuel.
    rewrite (FindNextField_short f x _ _ fuel Hp Hv Hl2).
    destruct (Nat.ltb_spec fuel (distance f (map crecord cs))) as [Hlt|Hge]; split; intros; try done; try lia.
  - cbn [iter_after]. rewrite (FindNextField_ok f x _ _ Hp Hv Hl2). cbn [rbind]. apply IH; auto; lia.
Qed.

Lemma iteration_cost mt m0 rs bs f :
  of_type mt m0 -> wire rs bs -> Forall (fun r => r.1 < Z.of_nat (alen mt)) rs -> Z.of_nat (length bs) < 2 ^ 63 ->
  In f (reps mt) -> 0 <= f < Z.of_nat (alen mt) -> Forall (fun w => wire_type w = 2) (occ f rs) ->
  exists m it, m_Decode mt m0 bs = Ok (None, m) /\ m_Iter m f = Ok it /\
    forall k n, steps f rs !! k = Some n ->
      exists itk, iter_after k it f = Ok itk /\ forall fuel, FindNextField fuel itk f = OutOfFuel <-> (fuel < n)%nat.
Proof.
  intros H0 Hw Hr Hl Hin Hf Hb. apply wire_concrete in Hw as (cs & Hv & <- & <-). fold (zlen (flat cs)) in Hl.
  destruct (decode_msg mt m0 cs) as (o' & He & Hwf & Hl' & Hi & _); try assumption.
  { apply of_type_zlen, H0. } { rewrite Forall_map in Hr. exact Hr. }
  exists (mkMsg (flat cs) o'), (next_rest f cs). split_and!; [exact He| |].
  - apply (m_Iter_ok (reps mt)); try assumption; [unfold in_range; rewrite Hl'; exact Hf|apply is_repeated_In, Hin].
  - intros k n Hk. apply (iter_steps f cs k n); try assumption.
    intros c Hc Hcf. rewrite Forall_forall in Hb.
    assert (Hwt : wire_type (cw c) = 2).
    { apply Hb. clear -Hc Hcf. induction cs as [|c' cs IH]; [inversion Hc|].
      cbn [map occ crecord]. apply elem_of_cons in Hc as [->|Hc].
      - rewrite Hcf, Z.eqb_refl. left.
      - destruct (cf c' =? f); [right|]; apply IH, Hc. }
    destruct (cw c); try discriminate. eauto.
Qed.
