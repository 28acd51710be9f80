(** * Proofs of the properties of single messages, histories and sub-messages *)
From Verif Require Import Runtime Spec VarintFacts OffsetsFacts RecFacts DecodeFacts DecodeClass SetFacts GetFacts IterFacts Fuel Api ApiFacts ApiInv.
From Coq Require Import ZifyBool.

Lemma m_Message_get mt' m f x :
  m_Message mt' m f x =
  let* v := m_get PBytes m f in
  match v with
  | VBytes (Some b) => let* (err, y) := m_Decode mt' x b in Ok (true, err, y)
  | _ => Ok (false, None, x)
  end.
Proof.
  unfold m_Message, m_get. destruct (GetBytes (mbuf m) (moff m) f) as [[b|]| | |]; reflexivity.
Qed.

Lemma same_at_occ mt sc m1 m2 cs1 cs2 f :
  schema_ok mt sc -> Rep mt sc m1 cs1 -> Rep mt sc m2 cs2 ->
  zlen (mbuf m1) < 2 ^ 63 -> zlen (mbuf m2) < 2 ^ 63 ->
  view sc (map crecord cs1) f = view sc (map crecord cs2) f ->
  same_at sc m1 m2 f.
Proof.
  intros Hsc H1 H2 Hl1 Hl2 Hv. unfold same_at, view in *. destruct (sc f) as [[T|]|] eqn:Hf; [|..|exact I].
  - assert (Hg : m_get T m1 f = m_get T m2 f).
    { rewrite (rep_get mt sc m1 cs1), (rep_get mt sc m2 cs2) by assumption.
      unfold read_single. rewrite <- (last_last_only (occ f (map crecord cs1))), <- (last_last_only (occ f (map crecord cs2))), Hv.
      reflexivity. }
    split; [exact Hg|]. intros -> mt' x. rewrite !m_Message_get, Hg. reflexivity.
  - intros n mt' x. unfold m_iterate.
    destruct (rep_iter mt sc m1 cs1 f) as (it1 & -> & Hi1); try assumption.
    destruct (rep_iter mt sc m2 cs2 f) as (it2 & -> & Hi2); try assumption.
    cbn [rbind]. rewrite Hi1, Hi2, Hv. reflexivity.
Qed.

Lemma hist_rep mt sc os m :
  schema_ok mt sc -> history mt sc os m -> ops_size os < 2 ^ 63 ->
  exists cs, Rep mt sc m cs /\ (forall f, spec_run sc os f = view sc (map crecord cs) f) /\
    zlen (mbuf m) <= ops_size os.
Proof. intros Hsc [Hok Hr] Hsz. eapply run_rep; eassumption. Qed.

Lemma read_single_view sc T f rs :
  sc f = Some (KSingle T) -> read_single T (view sc rs f) = read_single T (occ f rs).
Proof. intros Hf. unfold view, read_single. rewrite Hf, last_last_only. reflexivity. Qed.

Lemma set_result_len f new o o' cs cs' :
  set_result f new o o' cs cs' -> cmin new ->
  zlen (flat cs') <= zlen (flat cs) + 10 + zlen (cp new).
Proof.
  intros Hres [[Ht _] _]. apply tag_len in Ht. pose proof (zlen_nonneg (cp new)).
  destruct Hres as [cs Ho|pre c post Hc Ho Hcp Hct _|pre c post Hc Ho Hcp Hct];
    rewrite !flat_app; cbn [flat]; unfold cbytes; rewrite ?app_nil_r, ?flat_app; cbn [flat]; unfold cbytes;
    rewrite ?app_nil_r, ?zlen_app; rewrite ?Hct in *; try pose proof (zlen_nonneg (cp c)); lia.
Qed.

Lemma rep_set' mt sc m cs f T v :
  schema_ok mt sc -> Rep mt sc m cs -> sc f = Some (KSingle T) -> in_type T v ->
  zlen (mbuf m) + 20 + pval_size v < 2 ^ 63 ->
  exists m' cs', m_set T m f v = Ok m' /\ Rep mt sc m' cs' /\ zlen (mbuf m') < 2 ^ 63 /\
    (forall g, g <> f -> occ g (map crecord cs') = occ g (map crecord cs)) /\
    last_only (occ f (map crecord cs')) = [wire_of T v].
Proof.
  intros Hsc Hm Hf Hin Hsz.
  destruct (rep_set mt sc m cs f T v) as (m' & cs' & new & He & Hm' & Hnew & Hnf & Hnw & Hcan & Hpl & Hres & Hn); try assumption.
  exists m', cs'. destruct (set_result_occ _ _ _ _ _ _ Hres Hnf) as [Hne Hfo].
  split_and!; try assumption; [|rewrite Hfo, Hnw; reflexivity].
  pose proof (set_result_len _ _ _ _ _ _ Hres Hnew). rewrite (rep_buf _ _ _ _ Hm'). rewrite (rep_buf _ _ _ _ Hm) in Hsz. lia.
Qed.

(** C01 *)
Lemma read_your_write mt sc os m f T v :
  schema_ok mt sc -> history mt sc os m -> sc f = Some (KSingle T) -> in_type T v ->
  ops_size os + 20 + pval_size v < 2 ^ 63 ->
  exists m', m_set T m f v = Ok m' /\ m_get T m' f = Ok (stored v).
Proof.
  intros Hsc Hh Hf Hin Hsz.
  assert (Hps : 0 <= pval_size v) by (destruct v as [| | |[|]]; cbn; lia).
  destruct (hist_rep mt sc os m) as (cs & Hm & _ & Hl); try assumption; [lia|].
  destruct (rep_set' mt sc m cs f T v) as (m' & cs' & He & Hm' & Hl' & _ & Hfo); try assumption; [lia|].
  exists m'. split; [exact He|]. rewrite (rep_get mt sc m' cs') by assumption.
  unfold read_single. rewrite <- last_last_only, Hfo. cbn [last]. rewrite value_of_wire_of by exact Hin. reflexivity.
Qed.

(** C02 *)
Lemma set_frame mt sc os m f T v :
  schema_ok mt sc -> history mt sc os m -> sc f = Some (KSingle T) -> in_type T v ->
  ops_size os + 20 + pval_size v < 2 ^ 63 ->
  exists m', m_set T m f v = Ok m' /\ forall g, g <> f -> same_at sc m m' g.
Proof.
  intros Hsc Hh Hf Hin Hsz.
  assert (Hps : 0 <= pval_size v) by (destruct v as [| | |[|]]; cbn; lia).
  destruct (hist_rep mt sc os m) as (cs & Hm & _ & Hl); try assumption; [lia|].
  destruct (rep_set' mt sc m cs f T v) as (m' & cs' & He & Hm' & Hl' & Hne & Hfo); try assumption; [lia|].
  exists m'. split; [exact He|]. intros g Hg. eapply same_at_occ; try eassumption; [lia|].
  unfold view. rewrite (Hne g Hg). reflexivity.
Qed.

(** C03 *)
Lemma decode_upto_lists n mt' x l : (length l < n)%nat -> decode_upto n mt' x l = decode_each mt' x l.
Proof. apply decode_upto_each. Qed.

Lemma history_refines mt sc os :
  schema_ok mt sc -> Forall (op_ok (Z.of_nat (alen mt)) sc) os -> ops_size os < 2 ^ 63 ->
  exists m, run mt sc (msg_zero mt) os = Ok m /\
    (forall f T, sc f = Some (KSingle T) -> m_get T m f = Ok (read_single T (spec_run sc os f))) /\
    (forall f, sc f = Some KRepeated -> forall mt' x n,
       (length (spec_run sc os f) < n)%nat ->
       m_iterate n mt' m f x = decode_each mt' x (read_repeated (spec_run sc os f))).
Proof.
  intros Hsc Hok Hsz.
  destruct (rep_run mt sc os (msg_zero mt) [] (fun _ => [])) as (m & cs & He & Hm & Hs & Hl); try assumption.
  - apply rep_zero.
  - intros f. unfold view. destruct (sc f) as [[|]|]; reflexivity.
  - exists m. fold (spec_run sc os) in Hs. change (zlen (mbuf (msg_zero mt))) with 0 in Hl.
    assert (Hl' : zlen (mbuf m) < 2 ^ 63) by lia.
    split; [exact He|]. split.
    + intros f T Hf. rewrite (rep_get mt sc m cs) by assumption. rewrite Hs, (read_single_view _ _ _ _ Hf). reflexivity.
    + intros f Hf mt' x n Hn. destruct (rep_iter mt sc m cs f) as (it & Hit & Hi); try assumption.
      unfold m_iterate. rewrite Hit. cbn [rbind]. rewrite Hi. rewrite Hs in Hn |- *. unfold view in *. rewrite Hf in *.
      apply decode_upto_each. unfold read_repeated. rewrite map_length. exact Hn.
Qed.

(** C04 *)
Lemma encode_wellformed mt sc os m :
  schema_ok mt sc -> history mt sc os m -> ops_size os < 2 ^ 63 ->
  exists rs, wire_min rs (m_Encode m) /\
    Forall (fun r => r.1 < Z.of_nat (alen mt) /\ well_typed sc r) rs /\
    (forall f T, sc f = Some (KSingle T) -> last_only (occ f rs) = spec_run sc os f) /\
    (forall f, (forall T, sc f <> Some (KSingle T)) -> occ f rs = spec_run sc os f).
Proof.
  intros Hsc Hh Hsz. destruct (hist_rep mt sc os m) as (cs & Hm & Hs & Hl); try assumption.
  exists (map crecord cs). split_and!.
  - apply wire_min_concrete. exists cs. split_and!; [apply (rep_min _ _ _ _ Hm)|reflexivity|]. symmetry. apply (rep_buf _ _ _ _ Hm).
  - apply Forall_map. exact (rep_typed _ _ _ _ Hm).
  - intros f T Hf. rewrite Hs. unfold view. rewrite Hf. reflexivity.
  - intros f Hf. rewrite Hs. unfold view. destruct (sc f) as [[T|]|]; try reflexivity. exfalso. exact (Hf T eq_refl).
Qed.

(** C05 *)
Lemma of_type_zlen mt m : of_type mt m -> zlen (oa (moff m)) = Z.of_nat (alen mt).
Proof. unfold of_type, zlen. intros ->. reflexivity. Qed.

Lemma rep_of_type mt sc m cs : Rep mt sc m cs -> of_type mt m.
Proof. intros H. pose proof (rep_len _ _ _ _ H) as Hl. unfold zlen in Hl. unfold of_type. lia. Qed.

Lemma rep_decode_same mt sc m cs m0 :
  Rep mt sc m cs -> zlen (mbuf m) < 2 ^ 63 -> of_type mt m0 ->
  exists m', m_Decode mt m0 (m_Encode m) = Ok (None, m') /\ mbuf m' = mbuf m /\ Rep mt sc m' cs.
Proof.
  intros Hm Hl H0. unfold m_Encode. rewrite (rep_buf _ _ _ _ Hm) in *.
  destruct (decode_msg mt m0 cs) as (o' & He & Hwf & Hl' & Hi & Hn).
  - apply cmin_valid, (rep_min _ _ _ _ Hm).
  - exact Hl.
  - apply of_type_zlen, H0.
  - eapply Forall_impl; [exact (rep_typed _ _ _ _ Hm)|]. intros c [Hc _]. exact Hc.
  - exists (mkMsg (flat cs) o'). split_and!; try assumption; try reflexivity.
    split; cbn [mbuf moff]; try assumption; try reflexivity; [apply (rep_min _ _ _ _ Hm)|apply (rep_typed _ _ _ _ Hm)].
Qed.

Lemma decode_encode mt sc os m m0 :
  schema_ok mt sc -> history mt sc os m -> ops_size os < 2 ^ 63 -> of_type mt m0 ->
  exists m', m_Decode mt m0 (m_Encode m) = Ok (None, m') /\
    m_Encode m' = m_Encode m /\ same_answers sc m m'.
Proof.
  intros Hsc Hh Hsz H0. destruct (hist_rep mt sc os m) as (cs & Hm & Hs & Hl); try assumption.
  destruct (rep_decode_same mt sc m cs m0) as (m' & He & Hb & Hm'); [assumption|lia|assumption|].
  exists m'. split_and!; [exact He|exact Hb|]. intros f. eapply same_at_occ; try eassumption; [lia| |reflexivity].
  rewrite Hb. lia.
Qed.

(** C06 *)
Lemma decode_accepts mt m0 rs bs :
  of_type mt m0 -> wire rs bs -> Forall (fun r => r.1 < Z.of_nat (alen mt)) rs -> Z.of_nat (length bs) < 2 ^ 63 ->
  exists m, m_Decode mt m0 bs = Ok (None, m) /\ m_Encode m = bs /\
    (forall f T, 0 <= f < Z.of_nat (alen mt) -> ~ In f (reps mt) ->
       (forall w, last (occ f rs) = Some w -> conforms T w) ->
       m_get T m f = Ok (read_single T (occ f rs))) /\
    (forall f, 0 <= f < Z.of_nat (alen mt) -> In f (reps mt) ->
       Forall (fun w => wire_type w = 2) (occ f rs) ->
       forall mt' x n, (length (occ f rs) < n)%nat ->
         m_iterate n mt' m f x = decode_each mt' x (read_repeated (occ f rs))).
Proof.
  intros H0 Hw Hr Hl. apply wire_concrete in Hw as (cs & Hv & <- & <-). fold (zlen (flat cs)) in Hl.
  destruct (decode_msg mt m0 cs) as (o' & He & Hwf & Hl' & Hi & _); try assumption.
  { apply of_type_zlen, H0. } { rewrite Forall_map in Hr. exact Hr. }
  exists (mkMsg (flat cs) o'). split_and!; [exact He|reflexivity|..].
  - intros f T Hf Hnr Hc. eapply m_get_indexes; try eassumption.
    + unfold in_range. rewrite Hl'. exact Hf.
    + destruct (is_repeated (reps mt) f) eqn:E; [|reflexivity]. apply is_repeated_In in E. contradiction.
  - intros f Hf Hin Hb mt' x n Hn. unfold m_iterate.
    rewrite (m_Iter_ok (reps mt) o' cs f); try assumption.
    + cbn [rbind]. rewrite iterate_rest; try assumption.
      * apply decode_upto_each. unfold read_repeated. rewrite map_length. exact Hn.
      * intros c Hc Hcf. rewrite Forall_forall in Hb.
        assert (Hwt : wire_type (cw c) = 2).
        { apply Hb. clear -Hc Hcf. induction cs as [|c' cs IH]; [inversion Hc|].
          cbn [map occ crecord]. apply elem_of_cons in Hc as [->|Hc].
          - rewrite Hcf, Z.eqb_refl. left.
          - destruct (cf c' =? f); [right|]; apply IH, Hc. }
        destruct (cw c); try discriminate. eauto.
    + unfold in_range. rewrite Hl'. exact Hf.
    + apply is_repeated_In, Hin.
Qed.
