(** * Proofs: setters on decoded messages, accessors after Decode, element errors *)
From Verif Require Import Runtime Spec VarintFacts OffsetsFacts RecFacts DecodeFacts DecodeClass SetFacts GetFacts IterFacts Fuel Api ApiFacts ApiInv Core Core2 Core3 Core4.
From Coq Require Import ZifyBool.

(** ** C35 *)
Lemma next_calls_nil k mt' f x : next_calls k mt' None f x = decode_calls k mt' x [].
Proof. induction k as [|k IH]; [reflexivity|]. cbn [next_calls decode_calls]. rewrite it_Next_none. cbn [rbind]. rewrite IH. reflexivity. Qed.

Lemma next_calls_decode mt' f k : forall cs x,
  Forall cvalid cs -> all_bytes f cs -> zlen (flat cs) < 2 ^ 63 ->
  next_calls k mt' (next_rest f cs) f x = decode_calls k mt' x (read_repeated (occ f (map crecord cs))).
Proof.
  induction k as [|k IHk]; [reflexivity|].
  induction cs as [|c cs IH]; intros x Hv Hb Hlen.
  - apply (next_calls_nil (S k)).
  - apply Forall_cons in Hv as [[Ht Hp] Hv].
    cbn [flat] in Hlen. unfold cbytes in Hlen. rewrite !zlen_app in Hlen.
    pose proof (zlen_nonneg (ct c)). pose proof (zlen_nonneg (cp c)). pose proof (zlen_nonneg (flat cs)).
    assert (Hb' : all_bytes f cs) by (intros c' Hc'; apply Hb; right; exact Hc').
    cbn [map occ crecord next_rest] in *.
    destruct (Z.eqb_spec (cf c) f) as [Hc|Hc]; [|apply IH; [assumption..|lia]].
    destruct (Hb c ltac:(left) Hc) as [p Hpx]. rewrite Hpx in *. cbn [read_repeated map bytes_of] in *.
    cbn [next_calls decode_calls]. unfold it_Next.
    rewrite FindNextField_ok with (x := p) by (try assumption; rewrite zlen_app; lia). cbn [rbind].
    destruct (m_Decode mt' x p) as [[err y]| | |]; cbn [rbind]; try reflexivity.
    rewrite IHk by (try assumption; lia). reflexivity.
Qed.

Lemma occ_all_bytes f cs : Forall (fun w => wire_type w = 2) (occ f (map crecord cs)) -> all_bytes f cs.
Proof.
  intros Hb c Hc Hcf. rewrite Forall_forall in Hb.
  assert (Hwt : wire_type (cw c) = 2).
  { apply Hb. clear -Hc Hcf. induction cs as [|c' cs IH]; [inversion Hc|].
    cbn [map occ crecord]. apply elem_of_cons in Hc as [->|Hc].
    - rewrite Hcf, Z.eqb_refl. left.
    - destruct (cf c' =? f); [right|]; apply IH, Hc. }
  destruct (cw c); try discriminate. eauto.
Qed.

Lemma element_errors mt m0 rs bs :
  of_type mt m0 -> wire rs bs -> Forall (fun r => r.1 < Z.of_nat (alen mt)) rs -> Z.of_nat (length bs) < 2 ^ 63 ->
  exists m, m_Decode mt m0 bs = Ok (None, m) /\
    (forall f, In f (reps mt) -> 0 <= f < Z.of_nat (alen mt) -> Forall (fun w => wire_type w = 2) (occ f rs) ->
       exists it, m_Iter m f = Ok it /\
         forall k mt' x, next_calls k mt' it f x = decode_calls k mt' x (read_repeated (occ f rs))) /\
    (forall f p, ~ In f (reps mt) -> 0 <= f < Z.of_nat (alen mt) -> last (occ f rs) = Some (WBytes p) ->
       forall mt' x, m_Message mt' m f x = let* (err, y) := m_Decode mt' x p in Ok (true, err, y)).
Proof.
  intros Ht Hw Hr Hl.
  destruct (decode_accepts mt m0 rs bs Ht Hw Hr Hl) as (m & He & Hb & Hget & _).
  exists m. split; [exact He|]. split.
  - apply wire_concrete in Hw as (cs & Hv & <- & <-). fold (zlen (flat cs)) in Hl.
    destruct (decode_msg mt m0 cs) as (o' & He' & Hwf & Hl' & Hi & _); try assumption.
    { apply of_type_zlen, Ht. } { rewrite Forall_map in Hr. exact Hr. }
    rewrite He in He'. injection He' as ->.
    intros f Hin Hf Hby. exists (next_rest f cs). split.
    + apply (m_Iter_ok (reps mt)); try assumption; [unfold in_range; lia|apply is_repeated_In, Hin].
    + intros k mt' x. apply next_calls_decode; try assumption. apply occ_all_bytes, Hby.
  - intros f p Hnr Hf Hlast mt' x. rewrite m_Message_get. rewrite (Hget f PBytes Hf Hnr).
    + unfold read_single. rewrite Hlast. reflexivity.
    + intros w. rewrite Hlast. intros [= <-]. split; [reflexivity|exact I].
Qed.

(** ** C25 *)
Lemma last_split_unique f (pre pre' post post' : list crec) c c' :
  pre ++ c :: post = pre' ++ c' :: post' -> cf c = f -> cf c' = f ->
  occ f (map crecord post) = [] -> occ f (map crecord post') = [] -> pre = pre' /\ c = c' /\ post = post'.
Proof.
  revert pre'. induction pre as [|d pre IH]; intros [|d' pre'] He Hc Hc' Ho Ho'; cbn [app] in He; injection He as -> He.
  - auto.
  - exfalso. subst post. rewrite map_app, occ_app in Ho. cbn [map occ crecord] in Ho. rewrite Hc', Z.eqb_refl in Ho.
    apply app_eq_nil in Ho as [_ Ho]. discriminate.
  - exfalso. subst post'. rewrite map_app, occ_app in Ho'. cbn [map occ crecord] in Ho'. rewrite Hc, Z.eqb_refl in Ho'.
    apply app_eq_nil in Ho' as [_ Ho']. discriminate.
  - destruct (IH pre' He Hc Hc' Ho Ho') as (-> & -> & ->). auto.
Qed.

Lemma set_on_decoded mt m0 rs bs f T v :
  of_type mt m0 -> Z.of_nat (alen mt) <= 2 ^ 29 -> wire rs bs -> Forall (fun r => r.1 < Z.of_nat (alen mt)) rs ->
  Z.of_nat (length bs) + 20 + pval_size v < 2 ^ 63 ->
  0 <= f < Z.of_nat (alen mt) -> ~ In f (reps mt) -> in_type T v ->
  (occ f rs = [] \/
   exists rs1 b1 w tb pb rs2 b2, bs = b1 ++ tb ++ pb ++ b2 /\ wire rs1 b1 /\ wire rs2 b2 /\
     minimal_tag_enc (f, w) tb /\ payload_enc w pb /\ occ f rs2 = [] /\ wire_type w = ptype_wire_type T) ->
  exists m m' rs', m_Decode mt m0 bs = Ok (None, m) /\ m_set T m f v = Ok m' /\
    m_get T m' f = Ok (stored v) /\
    wire rs' (m_Encode m') /\ (forall g, g <> f -> occ g rs' = occ g rs) /\
    (forall g T', g <> f -> 0 <= g < Z.of_nat (alen mt) -> ~ In g (reps mt) ->
       (forall w, last (occ g rs) = Some w -> conforms T' w) ->
       m_get T' m g = Ok (read_single T' (occ g rs)) /\ m_get T' m' g = m_get T' m g) /\
    (forall g, g <> f -> 0 <= g < Z.of_nat (alen mt) -> In g (reps mt) ->
       Forall (fun w => wire_type w = 2) (occ g rs) ->
       forall n mt' x, m_iterate n mt' m' g x = m_iterate n mt' m g x).
Proof.
  intros Ht Hn Hw Hr Hsz Hf Hnr Hin Hlast.
  assert (Hps : 0 <= pval_size v) by (destruct v as [| | |[|]]; cbn; lia).
  apply wire_concrete in Hw as (cs & Hv & <- & <-). fold (zlen (flat cs)) in Hsz.
  pose proof (zlen_nonneg (flat cs)) as Hfl0.
  destruct (decode_msg mt m0 cs) as (o & He & Hwf & Hl' & Hi & _); try assumption.
  { lia. } { apply of_type_zlen, Ht. } { rewrite Forall_map in Hr. exact Hr. }
  exists (mkMsg (flat cs) o).
  destruct (m_set_unfold T (flat cs) o f v Hin) as (valLen & val & Hset & Hcan & Hpl); [lia|].
  assert (Hnrep : is_repeated (reps mt) f = false).
  { destruct (is_repeated (reps mt) f) eqn:E; [|reflexivity]. apply is_repeated_In in E. contradiction. }
  destruct (setSingle_ok (reps mt) o cs f (wire_of T v) valLen val) as
    (new & cs' & o' & Hs & Hnew & Hnf & Hnw & Hnp & Hwf' & Hlo' & Hi' & Hres & _); try assumption.
  - unfold in_range. lia.
  - lia.
  - apply canonical_payload_enc, Hcan.
  - lia.
  - intros pre c post Hcs Hc Hpost. destruct Hlast as [Hocc|(rs1 & b1 & w & tb & pb & rs2 & b2 & Hb & Hw1 & Hw2 & Hmin & Hp & Ho2 & Hwt)].
    + exfalso. rewrite Hcs, map_app, occ_app in Hocc. cbn [map occ crecord] in Hocc. rewrite Hc, Z.eqb_refl in Hocc.
      apply app_eq_nil in Hocc as [_ Hocc]. discriminate.
    + apply wire_concrete in Hw1 as (cs1 & Hv1 & <- & <-). apply wire_concrete in Hw2 as (cs2 & Hv2 & <- & <-).
      set (c0 := mkCrec f w tb pb).
      assert (Hc0 : cvalid c0). { split; [|exact Hp]. destruct Hmin as [H1 [H2 _]]. split; assumption. }
      assert (Hcs' : cs = cs1 ++ c0 :: cs2).
      { apply flat_det; try assumption.
        - apply Forall_app. split; [exact Hv1|]. constructor; assumption.
        - lia.
        - rewrite flat_app. cbn [flat]. rewrite Hb. unfold cbytes. cbn [c0 ct cp]. rewrite <- !app_assoc. reflexivity. }
      rewrite Hcs' in Hcs. apply (last_split_unique f) in Hcs as (_ & <- & _); try assumption; try reflexivity.
      split; [|exact Hmin]. cbn [c0 cw]. rewrite Hwt. symmetry. apply (conforms_wire_of T v Hin).
  - rewrite Hs in Hset. cbn [rbind] in Hset.
    destruct (set_result_occ _ _ _ _ _ _ Hres Hnf) as [Hne Hfo].
    pose proof (set_result_len _ _ _ _ _ _ Hres Hnew) as Hlen'. rewrite Hnp in Hlen'.
    assert (Hv' : Forall cvalid cs') by (eapply set_result_Forall; [eassumption..|apply Hnew]).
    exists (mkMsg (flat cs') o'), (map crecord cs'). split_and!; try assumption.
    + rewrite (m_get_indexes (reps mt) T o' cs' f); try assumption.
      * unfold read_single. rewrite <- last_last_only, Hfo, Hnw. cbn [last]. rewrite value_of_wire_of by exact Hin. reflexivity.
      * unfold in_range. lia.
      * lia.
      * intros w. rewrite <- last_last_only, Hfo, Hnw. cbn [last]. intros [= <-]. apply conforms_wire_of, Hin.
    + apply wire_concrete. eauto.
    + intros g T' Hg Hgr Hgn Hc.
      assert (Hgn' : is_repeated (reps mt) g = false).
      { destruct (is_repeated (reps mt) g) eqn:E; [|reflexivity]. apply is_repeated_In in E. contradiction. }
      rewrite (m_get_indexes (reps mt) T' o cs g); try assumption; try (unfold in_range; lia); try lia.
      rewrite (m_get_indexes (reps mt) T' o' cs' g); try assumption; try (unfold in_range; lia); try lia; rewrite Hne by exact Hg; auto.
    + intros g Hg Hgr Hgn Hby n mt' x. unfold m_iterate.
      rewrite (m_Iter_ok (reps mt) o cs g), (m_Iter_ok (reps mt) o' cs' g);
        try assumption; try (unfold in_range; lia); try (apply is_repeated_In; assumption).
      cbn [rbind]. rewrite !iterate_rest; try assumption; try lia.
      * rewrite Hne by exact Hg. reflexivity.
      * apply occ_all_bytes, Hby.
      * apply occ_all_bytes. rewrite Hne by exact Hg. exact Hby.
Qed.

(** ** C27, C28 *)
Lemma dec_upd_bound reps o f x o' b :
  owf o -> 0 <= x < b -> b <= 2 ^ 64 -> (forall g y, ofun o g = Some y -> y < b) -> dec_upd reps o f x = Ok o' ->
  owf o' /\ zlen (oa o') = zlen (oa o) /\ (forall g y, ofun o' g = Some y -> y < b).
Proof.
  intros Hwf Hx Hb Ho He. destruct (dec_upd_total reps o f x) as [(o2 & He2 & Hin & _)|[He2 _]]; [|congruence].
  assert (Hset : forall o2, offsets_set o f x = Ok o2 -> owf o2 /\ zlen (oa o2) = zlen (oa o) /\ (forall g y, ofun o2 g = Some y -> y < b)).
  { intros o3 E. destruct (offsets_set_ok o f x Hwf Hin ltac:(lia)) as (o4 & E4 & Hwf4 & Hl4 & Hf4 & Hg4 & _).
    rewrite E in E4. injection E4 as <-. split_and!; auto. intros g y Hy. destruct (decide (g = f)) as [->|Hg].
    - rewrite Hf4 in Hy. destruct (x =? 0); [discriminate|]. injection Hy as <-. lia.
    - rewrite Hg4 in Hy by exact Hg. eapply Ho, Hy. }
  unfold dec_upd in He. destruct (is_repeated reps f); [|apply Hset, He].
  destruct (offsets_get o f) as [[y [|]]| | |]; cbn [rbind] in He; try discriminate; [|apply Hset, He].
  injection He as <-. auto.
Qed.

Lemma decode_bounds buf reps fuel : forall idx o err o',
  zlen buf < 2 ^ 63 -> owf o -> (forall g y, ofun o g = Some y -> y < zlen buf) ->
  decode_loop fuel buf reps idx o = Ok (err, o') ->
  owf o' /\ zlen (oa o') = zlen (oa o) /\ (forall g y, ofun o' g = Some y -> y < zlen buf).
Proof.
  induction fuel as [|fuel IH]; intros idx o err o' Hl Hwf Ho He; [discriminate|]. cbn [decode_loop] in He.
  destruct (idx =? zlen buf); [injection He as _ <-; auto|]. destruct (zlen buf <? idx); [injection He as _ <-; auto|].
  destruct (slice_from buf idx) as [b| | |]; cbn [rbind] in He; try discriminate.
  destruct (uvarint b) as [tag size]. destruct (size =? 0); [injection He as _ <-; auto|]. cbn zeta in He.
  set (i := i64 (idx + size)) in *. destruct (Z.leb_spec (zlen buf) i) as [|Hi]; [injection He as _ <-; auto|].
  fold (dec_upd reps o (i64 (Z.shiftr tag 3)) (u64 i)) in He.
  destruct (dec_upd reps o (i64 (Z.shiftr tag 3)) (u64 i)) as [o1| | |] eqn:E1; cbn [rbind] in He; try discriminate.
  destruct (slice_from buf i) as [b2| | |] eqn:E2; cbn [rbind] in He; try discriminate.
  assert (Hi0 : 0 <= i) by (unfold slice_from in E2; destruct ((0 <=? i) && (i <=? zlen buf)) eqn:E; [lia|discriminate]).
  revert Hl. pows. intros Hl.
  rewrite u64_small in E1 by (pows; lia).
  destruct (dec_upd_bound reps o _ i o1 (zlen buf) Hwf ltac:(lia) ltac:(pows; lia) Ho E1) as (Hwf1 & Hl1 & Ho1).
  destruct (fieldDataSize (Z.land tag 7) b2) as [s| | |]; cbn [rbind] in He; try discriminate.
  destruct (s =? 0); [injection He as _ <-; auto|].
  destruct (IH _ _ _ _ ltac:(pows; lia) Hwf1 Ho1 He) as (H1 & H2 & H3). split_and!; auto. congruence.
Qed.

Lemma m_Decode_bounds mt m bs err m' :
  of_type mt m -> zlen bs < 2 ^ 63 -> m_Decode mt m bs = Ok (err, m') ->
  mbuf m' = bs /\ owf (moff m') /\ zlen (oa (moff m')) = Z.of_nat (alen mt) /\ (forall g y, ofun (moff m') g = Some y -> y < zlen bs).
Proof.
  intros Ht Hl He. unfold m_Decode, Decode in He. destruct (offsets_clear_ok (moff m)) as (Hwf & Hlc & Hf & _).
  rewrite (of_type_zlen _ _ Ht) in Hlc.
  destruct (decode_loop _ _ _ _ _) as [[e o']| | |] eqn:E; cbn [rbind] in He; try discriminate. injection He as -> <-.
  cbn [mbuf moff]. split; [reflexivity|]. apply decode_bounds in E; try assumption; [|intros g y; rewrite Hf; discriminate].
  rewrite Hlc in E. exact E.
Qed.

(** The varint accessors never panic after Decode returned, whatever it returned. *)
Lemma varint_getters_total mt m bs err m' f T :
  of_type mt m -> zlen bs < 2 ^ 63 -> m_Decode mt m bs = Ok (err, m') -> 0 <= f < Z.of_nat (alen mt) ->
  ptype_wire_type T = 0 -> exists v, m_get T m' f = Ok v.
Proof.
  intros Ht Hl He Hf HT. destruct (m_Decode_bounds _ _ _ _ _ Ht Hl He) as (Hb & Hwf & Hlo & Ho).
  assert (Hr : in_range (moff m') f) by (unfold in_range; lia).
  destruct (ofun (moff m') f) as [x|] eqn:Ex; cycle 1.
  { exists (default_of T). apply m_get_none; assumption. }
  pose proof (Ho _ _ Ex) as Hx. pose proof (ofun_pos _ _ _ Hwf Hr Ex) as Hx0. rewrite <- Hb in Hx.
  assert (Hs : exists b, slice_from (mbuf m') x = Ok b).
  { unfold slice_from. replace ((0 <=? x) && (x <=? zlen (mbuf m'))) with true by lia. eauto. }
  destruct Hs as [b Hs].
  destruct T; try discriminate; cbn [m_get];
    unfold GetBool, GetInt32, GetInt64, GetUint32, GetUint64, GetZigZagInt32, GetZigZagInt64;
    rewrite (with_offset_some _ _ _ _ _ Hwf Hr Ex), Hs; cbn [rbind]; unfold varint; destruct (uvarint b); cbn [rbind]; eauto.
Qed.

Lemma accessors_after_decode mt m bs m' :
  of_type mt m -> Forall is_byte bs -> zlen bs < 2 ^ 62 -> ~ malformed bs -> m_Decode mt m bs = Ok (None, m') ->
  exists rs, wire rs bs /\
    (forall f T, 0 <= f < Z.of_nat (alen mt) -> ~ In f (reps mt) ->
       (ptype_wire_type T = 0 \/ forall w, last (occ f rs) = Some w -> wire_type w = ptype_wire_type T) ->
       exists v, m_get T m' f = Ok v) /\
    (forall f, 0 <= f < Z.of_nat (alen mt) -> In f (reps mt) -> Forall (fun w => wire_type w = 2) (occ f rs) ->
       forall mt' x n, (length (occ f rs) < n)%nat -> m_iterate n mt' m' f x = decode_each mt' x (read_repeated (occ f rs))).
Proof.
  intros Ht Hb Hl Hnm He. assert (Hl2 : zlen bs < 2 ^ 63) by (revert Hl; change (2 ^ 62) with 4611686018427387904; pows; lia).
  destruct (m_Decode_class mt m bs Ht Hb Hl Hnm) as [(m2 & rs & He2 & Hw & Hr)|[(m2 & He2 & _)|[He2 _]]]; try congruence.
  destruct (decode_accepts mt m rs bs Ht Hw Hr Hl2) as (m3 & He3 & _ & Hget & Hit). rewrite He in He3. injection He3 as <-.
  exists rs. split_and!; [exact Hw| |exact Hit].
  intros f T Hf Hnr HT. destruct (decide (ptype_wire_type T = 0)) as [Hz|Hnz].
  - eapply varint_getters_total; eassumption.
  - destruct HT as [|HT]; [contradiction|]. rewrite (Hget f T Hf Hnr); [eauto|].
    intros w Hw'. split; [apply HT, Hw'|]. destruct T; try exact I. cbn in Hnz. congruence.
Qed.
