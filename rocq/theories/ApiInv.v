(** * The representation invariant and its preservation by every method *)
From Verif Require Import Runtime Spec VarintFacts OffsetsFacts RecFacts DecodeFacts DecodeClass SetFacts GetFacts IterFacts Fuel Api ApiFacts.
From Coq Require Import ZifyBool.

(** What the plain record holds for field [f] of a message with records [rs]. *)
Definition view (sc : schema) (rs : list record) (f : Z) : list wval :=
  match sc f with
  | Some (KSingle _) => last_only (occ f rs)
  | _ => occ f rs
  end.

Record Rep (mt : mtype) (sc : schema) (m : msg) (cs : list crec) : Prop := {
  rep_buf : mbuf m = flat cs;
  rep_min : Forall cmin cs;
  rep_owf : owf (moff m);
  rep_len : zlen (oa (moff m)) = Z.of_nat (alen mt);
  rep_idx : indexes (reps mt) (moff m) cs;
  rep_typed : Forall (fun c => cf c < Z.of_nat (alen mt) /\ well_typed sc (crecord c)) cs
}.

Lemma cmin_valid cs : Forall cmin cs -> Forall cvalid cs.
Proof. intros H. eapply Forall_impl; [exact H|]. intros c [Hc _]. exact Hc. Qed.

Lemma last_only_snoc ws w : last_only (ws ++ [w]) = [w].
Proof. unfold last_only. rewrite last_snoc. reflexivity. Qed.

Lemma last_last_only ws : last (last_only ws) = last ws.
Proof. unfold last_only. destruct (last ws); reflexivity. Qed.

Lemma set_result_occ f new o o' cs cs' :
  set_result f new o o' cs cs' -> cf new = f ->
  (forall g, g <> f -> occ g (map crecord cs') = occ g (map crecord cs)) /\
  last_only (occ f (map crecord cs')) = [cw new].
Proof.
  intros Hs Hf. destruct Hs as [cs Ho|pre c post Hc Ho _ _ _|pre c post Hc Ho _ _]; split.
  - intros g Hg. rewrite map_app, occ_app. cbn [map occ crecord]. replace (cf new =? g) with false by lia. apply app_nil_r.
  - rewrite map_app, occ_app. cbn [map occ crecord]. rewrite Hf, Z.eqb_refl. apply last_only_snoc.
  - intros g Hg. rewrite !map_app, !occ_app. cbn [map occ crecord].
    replace (cf new =? g) with false by lia. replace (cf c =? g) with false by lia. reflexivity.
  - rewrite !map_app, !occ_app. cbn [map occ crecord]. rewrite Hf, Z.eqb_refl, Ho. apply last_only_snoc.
  - intros g Hg. rewrite !map_app, !occ_app. cbn [map occ crecord].
    replace (cf new =? g) with false by lia. replace (cf c =? g) with false by lia. rewrite app_nil_r. reflexivity.
  - rewrite !map_app, !occ_app. cbn [map occ crecord]. rewrite Hf, Z.eqb_refl, Ho, app_nil_l. apply last_only_snoc.
Qed.

Lemma set_result_Forall f new o o' cs cs' (P : crec -> Prop) :
  set_result f new o o' cs cs' -> Forall P cs -> P new -> Forall P cs'.
Proof.
  intros Hs Hcs Hn. destruct Hs as [cs Ho|pre c post _ _ _ _ _|pre c post _ _ _ _].
  - apply Forall_app. split; [exact Hcs|]. constructor; [exact Hn|constructor].
  - apply Forall_app in Hcs as [H1 H2]. inversion H2; subst.
    apply Forall_app. split; [assumption|]. constructor; assumption.
  - apply Forall_app in Hcs as [H1 H2]. inversion H2; subst.
    apply Forall_app. split; [assumption|]. apply Forall_app. split; [assumption|]. constructor; [exact Hn|constructor].
Qed.

Lemma rep_set mt sc m cs f T v :
  schema_ok mt sc -> Rep mt sc m cs -> sc f = Some (KSingle T) -> in_type T v ->
  zlen (mbuf m) + 20 + pval_size v < 2 ^ 63 ->
  exists m' cs' new,
    m_set T m f v = Ok m' /\ Rep mt sc m' cs' /\
    cmin new /\ cf new = f /\ cw new = wire_of T v /\ canonical_payload (wire_of T v) (cp new) /\
    zlen (cp new) <= 10 + pval_size v /\
    set_result f new (moff m) (moff m') cs cs' /\
    (zlen (mbuf m') <= 65535 -> om (moff m) = None -> om (moff m') = None).
Proof.
  intros (Hn & Hrange & Hrep & Hsing) Hm Hf Hin Hsz. destruct m as [buf o].
  destruct Hm as [Hbuf Hmin Hwf Hlen Hidx Hty]. cbn [mbuf moff] in *. subst buf.
  assert (Hps : 0 <= pval_size v) by (destruct v as [| | |[|]]; cbn; lia).
  pose proof (zlen_nonneg (flat cs)) as Hfl.
  destruct (m_set_unfold T (flat cs) o f v Hin) as (valLen & val & Hset & Hcan & Hpl); [lia|].
  rewrite Hset. pose proof (cmin_valid _ Hmin) as Hv.
  destruct (setSingle_ok (reps mt) o cs f (wire_of T v) valLen val) as
    (new & cs' & o' & He & Hnew & Hnf & Hnw & Hnp & Hwf' & Hl' & Hi' & Hres & Hnone); try assumption.
  - unfold in_range. rewrite Hlen. eapply Hrange, Hf.
  - lia.
  - destruct (is_repeated (reps mt) f) eqn:E; [|reflexivity]. apply is_repeated_In in E. exfalso. eapply Hsing; eassumption.
  - apply canonical_payload_enc, Hcan.
  - lia.
  - intros pre c post -> Hc Hpost. split.
    + apply Forall_app in Hty as [_ Hty]. apply Forall_cons in Hty as [[_ Hc'] _].
      unfold well_typed in Hc'. cbn [crecord fst snd] in Hc'. rewrite Hc, Hf in Hc'.
      destruct Hc' as [Hc' _]. rewrite Hc'. destruct (conforms_wire_of T v Hin) as [-> _]. reflexivity.
    + apply Forall_app in Hmin as [_ Hmin]. apply Forall_cons in Hmin as [[_ Hc'] _]. exact Hc'.
  - rewrite He. cbn [rbind]. exists (mkMsg (flat cs') o'), cs', new. rewrite Hnp. split_and!; try assumption; try reflexivity.
    split; cbn [mbuf moff]; try assumption; try reflexivity.
    + eapply set_result_Forall; eassumption.
    + congruence.
    + eapply set_result_Forall; [eassumption..|]. rewrite Hnf. split; [eapply Hrange, Hf|].
      unfold well_typed. cbn [crecord fst snd]. rewrite Hnf, Hf, Hnw. apply conforms_wire_of, Hin.
Qed.

Lemma rep_append mt sc m cs f x :
  schema_ok mt sc -> Rep mt sc m cs -> sc f = Some KRepeated -> Forall is_byte x ->
  zlen (mbuf m) + 20 + zlen x < 2 ^ 63 ->
  exists m' new,
    m_append m f x = Ok m' /\ Rep mt sc m' (cs ++ [new]) /\
    cmin new /\ cf new = f /\ cw new = WBytes x /\ canonical_payload (WBytes x) (cp new) /\ zlen (cp new) <= 10 + zlen x /\
    (zlen (mbuf m') <= 65535 -> om (moff m) = None -> om (moff m') = None).
Proof.
  intros (Hn & Hrange & Hrep & Hsing) Hm Hf Hin Hsz. destruct m as [buf o].
  destruct Hm as [Hbuf Hmin Hwf Hlen Hidx Hty]. cbn [mbuf moff] in *. subst buf.
  pose proof (zlen_nonneg (flat cs)) as Hfl. pose proof (zlen_nonneg x).
  assert (H70 : 2 ^ (7 * Z.of_nat MaxVarintLen64) = 1180591620717411303424) by reflexivity.
  unfold m_append, AppendBytes. cbn [mbuf moff].
  destruct (put_min MaxVarintLen64 (zlen x)) as (lb & Hp & Hm);
    [pows; lia|rewrite H70; revert Hsz; pows; lia|unfold MaxVarintLen64; lia|].
  rewrite (u64_small (zlen x)) by (pows; lia). rewrite Hp. cbn [rbind].
  pose proof (cmin_valid _ Hmin) as Hv. pose proof (zlen_minimal_pos _ _ Hm) as Hlb.
  assert (Hcan : canonical_payload (WBytes x) (lb ++ x)) by (exists lb; auto).
  destruct (appendSingle_ok (reps mt) o cs f (WBytes x) lb x) as
    (new & o' & He & Hnew & Hnf & Hnw & Hnp & Hwf' & Hl' & Hi' & Hnone); try assumption.
  - unfold in_range. rewrite Hlen. eapply Hrange, Hf.
  - lia.
  - apply is_repeated_In, Hrep, Hf.
  - apply canonical_payload_enc, Hcan.
  - rewrite zlen_app. lia.
  - change WireBytes with (wire_type (WBytes x)). rewrite He. cbn [rbind].
    exists (mkMsg (flat (cs ++ [new])) o'), new. rewrite Hnp. split_and!; try assumption; try reflexivity.
    + split; cbn [mbuf moff]; try assumption; try reflexivity.
      * apply Forall_app. split; [exact Hmin|apply Forall_singleton, Hnew].
      * congruence.
      * apply Forall_app. split; [exact Hty|]. apply Forall_singleton. rewrite Hnf. split; [eapply Hrange, Hf|].
        unfold well_typed. cbn [crecord fst snd]. rewrite Hnf, Hf, Hnw. reflexivity.
    + rewrite zlen_app. lia.
Qed.

(** Decoding a well-formed buffer (any tags) into any struct of the type. *)
Lemma decode_msg mt m cs :
  Forall cvalid cs -> zlen (flat cs) < 2 ^ 63 -> zlen (oa (moff m)) = Z.of_nat (alen mt) ->
  Forall (fun c => cf c < Z.of_nat (alen mt)) cs ->
  exists o', m_Decode mt m (flat cs) = Ok (None, mkMsg (flat cs) o') /\
    owf o' /\ zlen (oa o') = Z.of_nat (alen mt) /\ indexes (reps mt) o' cs /\
    (zlen (flat cs) <= 65535 -> om (moff m) = None -> om o' = None).
Proof.
  intros Hv Hlen Hl Hr. unfold m_Decode.
  destruct (decode_ok (fuel_of (flat cs)) cs (reps mt) (moff m)) as (o' & He & Hwf & Hl' & Hi & Hn); try assumption.
  - intros c Hc. rewrite Forall_forall in Hr, Hv. unfold in_range. rewrite Hl. split; [|apply Hr, Hc].
    destruct (Hv c Hc) as [[H0 _] _]. exact H0.
  - unfold fuel_of. pose proof (length_flat cs Hv). lia.
  - rewrite He. cbn [rbind]. exists o'. split_and!; try assumption; try reflexivity. congruence.
Qed.

Lemma rep_decode mt sc m rs bs :
  zlen (oa (moff m)) = Z.of_nat (alen mt) ->
  wire_min rs bs -> Forall (fun r => r.1 < Z.of_nat (alen mt) /\ well_typed sc r) rs ->
  zlen bs < 2 ^ 63 ->
  exists m' cs, m_Decode mt m bs = Ok (None, m') /\ mbuf m' = bs /\ Rep mt sc m' cs /\ map crecord cs = rs /\
    (zlen bs <= 65535 -> om (moff m) = None -> om (moff m') = None).
Proof.
  intros Hl Hw Hty Hlen. apply wire_min_concrete in Hw as (cs & Hmin & <- & <-).
  apply Forall_map in Hty.
  destruct (decode_msg mt m cs) as (o' & He & Hwf & Hl' & Hi & Hn); try assumption.
  - apply cmin_valid, Hmin.
  - eapply Forall_impl; [exact Hty|]. intros c [Hc _]. exact Hc.
  - exists (mkMsg (flat cs) o'), cs. split_and!; try assumption; try reflexivity.
    split; try assumption; reflexivity.
Qed.

Lemma rep_zero mt sc : Rep mt sc (msg_zero mt) [].
Proof.
  unfold msg_zero. destruct (offsets_zero_ok (alen mt)) as (Hwf & Hl & Hf).
  split; cbn [mbuf moff]; try assumption; try constructor. apply indexes_nil, Hf.
Qed.

Lemma rep_reset mt sc m :
  zlen (oa (moff m)) = Z.of_nat (alen mt) ->
  exists m', m_Reset m [] = Ok m' /\ Rep mt sc m' [] /\ (om (moff m) = None -> om (moff m') = None).
Proof.
  intros Hl. destruct (offsets_clear_ok (moff m)) as (Hwf & Hl' & Hf & Hn).
  exists (mkMsg [] (offsets_clear (moff m))). split; [reflexivity|]. split; [|exact Hn].
  split; cbn [mbuf moff]; try assumption; try constructor; [congruence|apply indexes_nil, Hf].
Qed.

(** ** One operation *)
Lemma rep_step mt sc m cs o s :
  schema_ok mt sc -> Rep mt sc m cs -> (forall f, s f = view sc (map crecord cs) f) ->
  op_ok (Z.of_nat (alen mt)) sc o -> zlen (mbuf m) + op_size o < 2 ^ 63 ->
  exists m' cs', step mt sc m o = Ok m' /\ Rep mt sc m' cs' /\
    (forall f, spec_step sc s o f = view sc (map crecord cs') f) /\
    zlen (mbuf m') <= zlen (mbuf m) + op_size o /\
    (zlen (mbuf m') <= 65535 -> om (moff m) = None -> om (moff m') = None).
Proof.
  intros Hsc Hm Hs Hop Hsz. pose proof (zlen_nonneg (mbuf m)) as Hm0.
  destruct o as [f v|f x| |rs bs]; cbn [op_ok op_size step] in *.
  - destruct Hop as (T & Hf & Hin). rewrite Hf.
    destruct (rep_set mt sc m cs f T v) as (m' & cs' & new & He & Hm' & Hnew & Hnf & Hnw & Hcan & Hpl & Hres & Hn);
      try assumption; [lia|].
    exists m', cs'. split_and!; try assumption.
    + intros g. cbn [spec_step]. rewrite Hf. destruct (set_result_occ _ _ _ _ _ _ Hres Hnf) as [Hne Hfo].
      unfold view. destruct (Z.eqb_spec g f) as [->|Hg].
      * rewrite Hf, Hfo, Hnw. reflexivity.
      * rewrite Hs. unfold view. rewrite Hne by exact Hg. reflexivity.
    + rewrite (rep_buf _ _ _ _ Hm'), (rep_buf _ _ _ _ Hm).
      destruct Hnew as [[Ht _] _]. apply tag_len in Ht.
      clear -Hres Ht Hpl. pose proof (zlen_nonneg (cp new)). 
      destruct Hres as [cs Ho|pre c post Hc Ho Hcp Hct _|pre c post Hc Ho Hcp Hct];
        rewrite !flat_app; cbn [flat]; unfold cbytes; rewrite ?app_nil_r, ?flat_app; cbn [flat]; unfold cbytes;
        rewrite ?app_nil_r, ?zlen_app; rewrite ?Hct in *; try pose proof (zlen_nonneg (cp c)); lia.
  - destruct Hop as (Hf & Hx). fold (zlen x) in *.
    destruct (rep_append mt sc m cs f x) as (m' & new & He & Hm' & Hnew & Hnf & Hnw & Hcan & Hpl & Hn);
      try assumption; [lia|].
    exists m', (cs ++ [new]). split_and!; try assumption.
    + intros g. cbn [spec_step]. rewrite Hs. unfold view. rewrite map_app, occ_app. cbn [map occ crecord]. rewrite Hnf.
      rewrite (Z.eqb_sym g f). destruct (Z.eqb_spec f g) as [<-|Hg].
      * rewrite Hf, Hnw. reflexivity.
      * rewrite app_nil_r. reflexivity.
    + rewrite (rep_buf _ _ _ _ Hm'), (rep_buf _ _ _ _ Hm). rewrite flat_app. cbn [flat]. unfold cbytes.
      destruct Hnew as [[Ht _] _]. apply tag_len in Ht. rewrite app_nil_r, !zlen_app. lia.
  - destruct (rep_reset mt sc m (rep_len _ _ _ _ Hm)) as (m' & He & Hm' & Hn).
    exists m', []. split_and!; try assumption; try tauto.
    + intros g. unfold view. destruct (sc g) as [[|]|]; reflexivity.
    + rewrite (rep_buf _ _ _ _ Hm'). cbn [flat]. rewrite zlen_nil. lia.
  - destruct Hop as (Hw & Hty). fold (zlen bs) in *.
    destruct (rep_decode mt sc m rs bs) as (m' & cs' & He & Hb & Hm' & Hrs & Hn); try assumption.
    + apply (rep_len _ _ _ _ Hm).
    + lia.
    + rewrite He. cbn [rbind]. exists m', cs'. split_and!; try assumption; try reflexivity.
      * intros g. cbn [spec_step]. unfold view. rewrite Hrs. reflexivity.
      * rewrite Hb. lia.
      * rewrite Hb. exact Hn.
Qed.

Lemma op_size_nonneg o : 0 <= op_size o.
Proof. destruct o as [f v|f x| |rs bs]; cbn; try lia. destruct v as [| | |[|]]; cbn; lia. Qed.

Lemma ops_size_cons o os : ops_size (o :: os) = op_size o + ops_size os.
Proof. reflexivity. Qed.

Lemma ops_size_nonneg os : 0 <= ops_size os.
Proof. induction os as [|o os IH]; [cbn; lia|]. rewrite ops_size_cons. pose proof (op_size_nonneg o). lia. Qed.

(** ** Histories *)
Lemma rep_run mt sc os : forall m cs s,
  schema_ok mt sc -> Rep mt sc m cs -> (forall f, s f = view sc (map crecord cs) f) ->
  Forall (op_ok (Z.of_nat (alen mt)) sc) os -> zlen (mbuf m) + ops_size os < 2 ^ 63 ->
  exists m' cs', run mt sc m os = Ok m' /\ Rep mt sc m' cs' /\
    (forall f, fold_left (spec_step sc) os s f = view sc (map crecord cs') f) /\
    zlen (mbuf m') <= zlen (mbuf m) + ops_size os.
Proof.
  induction os as [|o os IH]; intros m cs s Hsc Hm Hs Hok Hsz.
  - exists m, cs. split_and!; try assumption; try reflexivity. cbn. lia.
  - apply Forall_cons in Hok as [Ho Hok]. rewrite ops_size_cons in Hsz. pose proof (ops_size_nonneg os).
    destruct (rep_step mt sc m cs o s) as (m1 & cs1 & He & Hm1 & Hs1 & Hl1 & _); try assumption; [lia|].
    cbn [run fold_left]. rewrite He. cbn [rbind].
    destruct (IH m1 cs1 (spec_step sc s o)) as (m2 & cs2 & He2 & Hm2 & Hs2 & Hl2); try assumption; [lia|].
    exists m2, cs2. split_and!; try assumption. rewrite ops_size_cons. lia.
Qed.

Lemma run_rep mt sc os m :
  schema_ok mt sc -> Forall (op_ok (Z.of_nat (alen mt)) sc) os -> ops_size os < 2 ^ 63 ->
  run mt sc (msg_zero mt) os = Ok m ->
  exists cs, Rep mt sc m cs /\ (forall f, spec_run sc os f = view sc (map crecord cs) f) /\
    zlen (mbuf m) <= ops_size os.
Proof.
  intros Hsc Hok Hsz Hr.
  destruct (rep_run mt sc os (msg_zero mt) [] (fun _ => [])) as (m' & cs' & He & Hm' & Hs & Hl); try assumption.
  - apply rep_zero.
  - intros f. unfold view. destruct (sc f) as [[|]|]; reflexivity.
  - rewrite Hr in He. injection He as <-. exists cs'. auto.
Qed.

(** ** Reading *)
Lemma rep_get mt sc m cs f T :
  schema_ok mt sc -> Rep mt sc m cs -> zlen (mbuf m) < 2 ^ 63 -> sc f = Some (KSingle T) ->
  m_get T m f = Ok (read_single T (occ f (map crecord cs))).
Proof.
  intros (Hn & Hrange & Hrep & Hsing) Hm Hlen Hf. destruct m as [buf o].
  destruct Hm as [Hbuf Hmin Hwf Hl Hidx Hty]. cbn [mbuf moff] in *. subst buf.
  eapply m_get_indexes; eauto.
  - apply cmin_valid, Hmin.
  - unfold in_range. rewrite Hl. eapply Hrange, Hf.
  - destruct (is_repeated (reps mt) f) eqn:E; [|reflexivity]. apply is_repeated_In in E. exfalso. eapply Hsing; eassumption.
  - intros w Hw. apply last_Some in Hw as [l Hw].
    assert (Hin : exists c, c ∈ cs /\ cf c = f /\ cw c = w).
    { clear -Hw. revert l Hw. induction cs as [|c cs IH]; intros l Hw; cbn [map occ crecord] in Hw.
      - destruct l; discriminate.
      - destruct (Z.eqb_spec (cf c) f) as [Hc|Hc].
        + destruct l as [|w' l]; cbn [app] in Hw.
          * injection Hw as Hw _. exists c. split_and!; auto. left.
          * injection Hw as _ Hw. destruct (IH _ Hw) as (c' & Hin & H1 & H2). exists c'. split_and!; auto. right. exact Hin.
        + destruct (IH _ Hw) as (c' & Hin & H1 & H2). exists c'. split_and!; auto. right. exact Hin. }
    destruct Hin as (c & Hc & Hcf & <-). rewrite Forall_forall in Hty. destruct (Hty c Hc) as [_ Hwt].
    unfold well_typed in Hwt. cbn [crecord fst snd] in Hwt. rewrite Hcf, Hf in Hwt. exact Hwt.
Qed.

Lemma typed_all_bytes sc cs f :
  Forall (fun c => well_typed sc (crecord c)) cs -> sc f = Some KRepeated -> all_bytes f cs.
Proof.
  intros Hty Hf c Hc Hcf. rewrite Forall_forall in Hty. specialize (Hty c Hc).
  unfold well_typed in Hty. cbn [crecord fst snd] in Hty. rewrite Hcf, Hf in Hty.
  destruct (cw c); try discriminate. eauto.
Qed.

Lemma rep_iter mt sc m cs f :
  schema_ok mt sc -> Rep mt sc m cs -> zlen (mbuf m) < 2 ^ 63 -> sc f = Some KRepeated ->
  exists it, m_Iter m f = Ok it /\
    forall mt' x n,
      iterate n mt' it f x = decode_upto n mt' x (read_repeated (occ f (map crecord cs))).
Proof.
  intros (Hn & Hrange & Hrep & Hsing) Hm Hlen Hf. destruct m as [buf o].
  destruct Hm as [Hbuf Hmin Hwf Hl Hidx Hty]. cbn [mbuf moff] in *. subst buf.
  pose proof (cmin_valid _ Hmin) as Hv.
  exists (next_rest f cs). split.
  - eapply m_Iter_ok; eauto.
    + unfold in_range. rewrite Hl. eapply Hrange, Hf.
    + apply is_repeated_In, Hrep, Hf.
  - intros mt' x n. apply iterate_rest; try assumption.
    eapply typed_all_bytes; [|exact Hf]. eapply Forall_impl; [exact Hty|]. intros c [_ Hc]. exact Hc.
Qed.
