(** * Proofs: histories over arbitrary decoded messages (C25) *)
From Verif Require Import Runtime Spec SpecHist VarintFacts OffsetsFacts RecFacts DecodeFacts DecodeClass SetFacts GetFacts IterFacts Fuel Api ApiFacts ApiInv Core Core2 Core3 Core4 Core5.
From Coq Require Import ZifyBool.

(** One operation on the struct.  A Decode error counts as failure. *)
Definition gstep_m (mt : mtype) (m : msg) (o : gop) : res msg :=
  match o with
  | GSet f T v => m_set T m f v
  | GAppend f x => m_append m f x
  | GReset => m_Reset m []
  | GDecode _ bs =>
    let* (err, m) := m_Decode mt m bs in
    match err with None => Ok m | Some _ => Panic end
  end.

Fixpoint grun (mt : mtype) (m : msg) (os : list gop) : res msg :=
  match os with
  | [] => Ok m
  | o :: os => let* m := gstep_m mt m o in grun mt m os
  end.

Notation acrec := (crec * bool)%type.
Definition avalid (a : acrec) : Prop :=
  cvalid a.1 /\ (a.2 = true -> minimal_tag_enc (crecord a.1) (ct a.1)).
Definition arecord (a : acrec) : record * bool := (crecord a.1, a.2).

Lemma wire_tags_concrete rs bs :
  wire_tags rs bs <-> exists cs, Forall avalid cs /\ map arecord cs = rs /\ flat (map fst cs) = bs.
Proof.
  split.
  - induction 1 as [|r b rs tb pb bs Ht Hm Hp _ (cs & Hv & <- & <-)].
    + exists []. auto.
    + destruct r as [f w]. exists ((mkCrec f w tb pb, b) :: cs). split_and!.
      * constructor; [|exact Hv]. repeat split; try apply Ht; try exact Hp; apply Hm; assumption.
      * reflexivity.
      * cbn [map flat fst]. unfold cbytes. cbn [ct cp]. rewrite app_assoc. reflexivity.
  - intros (cs & Hv & <- & <-). induction Hv as [|[c b] cs [[Ht Hp] Hm] _ IH]; [constructor|].
    cbn [map flat fst]. unfold cbytes. rewrite <- app_assoc. apply (wire_tags_cons (crecord c) b); assumption.
Qed.

Lemma occ_tags_app f a b : occ_tags f (a ++ b) = occ_tags f a ++ occ_tags f b.
Proof. apply flat_map_app. Qed.

Lemma occ_tags_cons f r rs : occ_tags f (r :: rs) = (if r.1.1 =? f then [(r.1.2, r.2)] else []) ++ occ_tags f rs.
Proof. reflexivity. Qed.

Lemma occ_tags_acons f c b l :
  occ_tags f (map arecord ((c, b) :: l)) = (if cf c =? f then [(cw c, b)] else []) ++ occ_tags f (map arecord l).
Proof. reflexivity. Qed.

Lemma occ_tags_occ f cs :
  map fst (occ_tags f (map arecord cs)) = occ f (map crecord (map fst cs)).
Proof.
  induction cs as [|[c b] cs IH]; [reflexivity|].
  cbn [map]. rewrite occ_tags_cons, map_app, IH. cbn [arecord crecord fst snd map occ].
  destruct (cf c =? f); reflexivity.
Qed.

Lemma occ_tags_nil f cs : occ f (map crecord (map fst cs)) = [] -> occ_tags f (map arecord cs) = [].
Proof. rewrite <- occ_tags_occ. destruct (occ_tags f (map arecord cs)); [reflexivity|discriminate]. Qed.

Lemma map_fst_split {A B} (l : list (A * B)) x c y :
  map fst l = x ++ c :: y -> exists l1 b l2, l = l1 ++ (c, b) :: l2 /\ map fst l1 = x /\ map fst l2 = y.
Proof.
  revert x. induction l as [|[a b] l IH]; intros [|x0 x] H; try discriminate; cbn [map fst app] in H; injection H as <- H.
  - exists [], b, l. auto.
  - destruct (IH x H) as (l1 & b' & l2 & -> & <- & <-). exists ((a, b) :: l1), b', l2. auto.
Qed.

Record GRep (mt : mtype) (s : grec) (m : msg) (cs : list acrec) : Prop := {
  grep_buf : mbuf m = flat (map fst cs);
  grep_valid : Forall avalid cs;
  grep_owf : owf (moff m);
  grep_len : zlen (oa (moff m)) = Z.of_nat (alen mt);
  grep_idx : indexes (reps mt) (moff m) (map fst cs);
  grep_s : forall f, s f = occ_tags f (map arecord cs)
}.

Lemma avalid_valid cs : Forall avalid cs -> Forall cvalid (map fst cs).
Proof. intros H. apply Forall_map. eapply Forall_impl; [exact H|]. intros a [Ha _]. exact Ha. Qed.

Lemma cmin_avalid c : cmin c -> avalid (c, true).
Proof. intros [H1 H2]. split; auto. Qed.

Lemma removelast_snoc {A} (l : list A) x : removelast (l ++ [x]) = l.
Proof. apply removelast_last. Qed.

Lemma not_rep_false mt f : ~ In f (reps mt) -> is_repeated (reps mt) f = false.
Proof. intros H. destruct (is_repeated (reps mt) f) eqn:E; [|reflexivity]. apply is_repeated_In in E. contradiction. Qed.

Lemma grep_step mt s m cs o :
  Z.of_nat (alen mt) <= 2 ^ 29 -> GRep mt s m cs -> gok (Z.of_nat (alen mt)) (reps mt) s o ->
  zlen (mbuf m) + gop_size o < 2 ^ 63 ->
  exists m' cs', gstep_m mt m o = Ok m' /\ GRep mt (gstep s o) m' cs' /\ zlen (mbuf m') <= zlen (mbuf m) + gop_size o.
Proof.
  intros Hn [Hbuf Hv Hwf Hlen Hidx Hs] Hok Hsz. destruct m as [buf of]. cbn [mbuf moff] in *. subst buf.
  pose proof (zlen_nonneg (flat (map fst cs))) as Hfl. pose proof (avalid_valid _ Hv) as Hcv.
  destruct o as [f T v|f x| |rs bs]; cbn [gok gop_size gstep_m] in *.
  - destruct Hok as (Hf & Hnr & Hin & Hlast).
    assert (Hps : 0 <= pval_size v) by (destruct v as [| | |[|]]; cbn; lia).
    destruct (m_set_unfold T (flat (map fst cs)) of f v Hin) as (valLen & val & Hset & Hcan & Hpl); [lia|].
    destruct (setSingle_ok (reps mt) of (map fst cs) f (wire_of T v) valLen val) as
      (new & cs' & o' & He & Hnew & Hnf & Hnw & Hnp & Hwf' & Hl' & Hi' & Hres & _); try assumption.
    + unfold in_range. lia.
    + lia.
    + apply not_rep_false, Hnr.
    + apply canonical_payload_enc, Hcan.
    + lia.
    + intros pre c post Hcs Hc Hpost.
      apply map_fst_split in Hcs as (l1 & b & l2 & -> & <- & <-).
      rewrite Hs, map_app, occ_tags_app in Hlast. rewrite occ_tags_acons in Hlast.
      rewrite Hc, Z.eqb_refl, (occ_tags_nil f l2 Hpost) in Hlast.
      rewrite app_nil_r, last_snoc in Hlast. destruct Hlast as [Hwt ->].
      apply Forall_app in Hv as [_ Hv]. apply Forall_cons in Hv as [[_ Hm] _].
      split; [|apply Hm; reflexivity]. destruct (conforms_wire_of T v Hin) as [-> _]. exact Hwt.
    + rewrite Hset, He. cbn [rbind].
      assert (Hb : zlen (flat cs') <= zlen (flat (map fst cs)) + (20 + pval_size v)).
      { pose proof (set_result_len _ _ _ _ _ _ Hres Hnew) as H. rewrite Hnp in H. lia. }
      assert (Hgoal : exists acs, map fst acs = cs' /\ Forall avalid acs /\
        forall g, gstep s (GSet f T v) g = occ_tags g (map arecord acs)).
      { clear -Hres Hv Hs Hnf Hnw Hnew. remember (map fst cs) as ccs eqn:Hcs.
        destruct Hres as [ccs Hocc|pre c post Hc Hocc _ _ _|pre c post Hc Hocc _ _].
        - exists (cs ++ [(new, true)]). subst ccs. split_and!.
          + rewrite map_app. reflexivity.
          + apply Forall_app. split; [exact Hv|]. apply Forall_singleton, cmin_avalid, Hnew.
          + intros g. cbn [gstep]. rewrite map_app, occ_tags_app. rewrite occ_tags_acons. rewrite Hnf, Hnw, !Hs, (occ_tags_nil f cs Hocc).
            rewrite (Z.eqb_sym f g). destruct (Z.eqb_spec g f) as [E|E].
            * rewrite E, (occ_tags_nil f cs Hocc). reflexivity.
            * cbn. rewrite app_nil_r. reflexivity.
        - symmetry in Hcs. apply map_fst_split in Hcs as (l1 & b & l2 & -> & <- & <-).
          exists (l1 ++ (new, true) :: l2). split_and!.
          + rewrite map_app. reflexivity.
          + apply Forall_app in Hv as [Hv1 Hv2]. apply Forall_cons in Hv2 as [_ Hv2].
            apply Forall_app. split; [exact Hv1|]. constructor; [apply cmin_avalid, Hnew|exact Hv2].
          + intros g. cbn [gstep]. rewrite !Hs, !map_app, !occ_tags_app. rewrite !occ_tags_acons. rewrite Hnf, Hnw, Hc, Z.eqb_refl, (occ_tags_nil f l2 Hocc).
            rewrite (Z.eqb_sym f g). destruct (Z.eqb_spec g f) as [E|E].
            * rewrite E, (occ_tags_nil f l2 Hocc), !app_nil_r, removelast_snoc. reflexivity.
            * reflexivity.
        - symmetry in Hcs. apply map_fst_split in Hcs as (l1 & b & l2 & -> & <- & <-).
          exists (l1 ++ l2 ++ [(new, true)]). split_and!.
          + rewrite !map_app. reflexivity.
          + apply Forall_app in Hv as [Hv1 Hv2]. apply Forall_cons in Hv2 as [_ Hv2].
            rewrite !Forall_app. split; [exact Hv1|]. split; [exact Hv2|]. apply Forall_singleton, cmin_avalid, Hnew.
          + intros g. cbn [gstep]. rewrite !Hs, !map_app, !occ_tags_app. rewrite !occ_tags_acons. rewrite Hnf, Hnw, Hc, Z.eqb_refl, (occ_tags_nil f l2 Hocc).
            rewrite (Z.eqb_sym f g). destruct (Z.eqb_spec g f) as [E|E].
            * rewrite E, (occ_tags_nil f l2 Hocc), !app_nil_r, removelast_snoc. reflexivity.
            * cbn. rewrite app_nil_r. reflexivity. }
      destruct Hgoal as (acs & <- & Hav & Hg). exists (mkMsg (flat (map fst acs)) o'), acs.
      split_and!; [reflexivity| |exact Hb].
      split; cbn [mbuf moff]; try assumption; try reflexivity. lia.
  - destruct Hok as (Hf & Hr & Hx). fold (zlen x) in *. pose proof (zlen_nonneg x).
    assert (H70 : 2 ^ (7 * Z.of_nat MaxVarintLen64) = 1180591620717411303424) by reflexivity.
    unfold m_append, AppendBytes. cbn [mbuf moff].
    destruct (put_min MaxVarintLen64 (zlen x)) as (lb & Hp & Hm);
      [pows; lia|rewrite H70; revert Hsz; pows; lia|unfold MaxVarintLen64; lia|].
    rewrite (u64_small (zlen x)) by (pows; lia). rewrite Hp. cbn [rbind].
    pose proof (zlen_minimal_pos _ _ Hm) as Hlb.
    assert (Hcan : canonical_payload (WBytes x) (lb ++ x)) by (exists lb; auto).
    destruct (appendSingle_ok (reps mt) of (map fst cs) f (WBytes x) lb x) as
      (new & o' & He & Hnew & Hnf & Hnw & Hnp & Hwf' & Hl' & Hi' & _); try assumption.
    + unfold in_range. lia.
    + lia.
    + apply is_repeated_In, Hr.
    + apply canonical_payload_enc, Hcan.
    + rewrite zlen_app. lia.
    + change WireBytes with (wire_type (WBytes x)). rewrite He. cbn [rbind].
      exists (mkMsg (flat (map fst cs ++ [new])) o'), (cs ++ [(new, true)]). split_and!; [reflexivity| |].
      * split; cbn [mbuf moff]; rewrite ?map_app; try assumption; try reflexivity.
        -- apply Forall_app. split; [exact Hv|]. apply Forall_singleton, cmin_avalid, Hnew.
        -- lia.
        -- intros g. cbn [gstep]. rewrite occ_tags_app. rewrite occ_tags_acons. rewrite Hnf, Hnw, !Hs.
           rewrite (Z.eqb_sym f g). destruct (Z.eqb_spec g f) as [E|E].
           ++ rewrite E. reflexivity.
           ++ cbn. rewrite app_nil_r. reflexivity.
      * cbn [mbuf]. rewrite flat_app. cbn [flat]. unfold cbytes. destruct Hnew as [[Ht _] _]. apply tag_len in Ht.
        rewrite Hnp, app_nil_r, !zlen_app. lia.
  - destruct (offsets_clear_ok of) as (Hwf' & Hl' & Hf & _).
    exists (mkMsg [] (offsets_clear of)), []. split_and!; [reflexivity| |cbn [mbuf]; rewrite zlen_nil; lia].
    split; cbn [mbuf moff map flat]; try assumption; try constructor; [congruence|apply indexes_nil, Hf].
  - destruct Hok as (Hw & Hr). fold (zlen bs) in *.
    apply wire_tags_concrete in Hw as (acs & Hav & <- & <-). rewrite Forall_map in Hr.
    destruct (decode_msg mt (mkMsg (flat (map fst cs)) of) (map fst acs)) as (o' & He & Hwf' & Hl' & Hi & _).
    + apply avalid_valid, Hav.
    + lia.
    + exact Hlen.
    + apply Forall_map. eapply Forall_impl; [exact Hr|]. intros a Ha. exact Ha.
    + rewrite He. cbn [rbind]. exists (mkMsg (flat (map fst acs)) o'), acs. split_and!; [reflexivity| |cbn [mbuf]; lia].
      split; cbn [mbuf moff]; try assumption; try reflexivity.
Qed.

Lemma gop_size_nonneg o : 0 <= gop_size o.
Proof. destruct o as [f T v|f x| |rs bs]; cbn; try lia. destruct v as [| | |[|]]; cbn; lia. Qed.

Lemma gops_size_nonneg os : 0 <= gops_size os.
Proof. induction os as [|o os IH]; [cbn; lia|]. cbn. pose proof (gop_size_nonneg o). unfold gops_size in IH. lia. Qed.

Lemma grep_run mt os : forall s m cs,
  Z.of_nat (alen mt) <= 2 ^ 29 -> GRep mt s m cs -> glegal (Z.of_nat (alen mt)) (reps mt) s os ->
  zlen (mbuf m) + gops_size os < 2 ^ 63 ->
  exists m' cs', grun mt m os = Ok m' /\ GRep mt (fold_left gstep os s) m' cs' /\ zlen (mbuf m') < 2 ^ 63.
Proof.
  induction os as [|o os IH]; intros s m cs Hn Hm Hok Hsz; cbn [glegal grun fold_left] in *.
  - exists m, cs. split_and!; auto. cbn in Hsz. lia.
  - destruct Hok as [Ho Hok]. change (gops_size (o :: os)) with (gop_size o + gops_size os) in Hsz.
    pose proof (gops_size_nonneg os).
    destruct (grep_step mt s m cs o Hn Hm Ho) as (m1 & cs1 & He & Hm1 & Hl1); [lia|].
    rewrite He. cbn [rbind]. apply (IH _ m1 cs1); try assumption. lia.
Qed.

Lemma grep_zero mt : GRep mt (fun _ => []) (msg_zero mt) [].
Proof.
  unfold msg_zero. destruct (offsets_zero_ok (alen mt)) as (Hwf & Hl & Hf).
  split; cbn [mbuf moff]; try assumption; try constructor. apply indexes_nil, Hf.
Qed.

Lemma general_history mt os :
  Z.of_nat (alen mt) <= 2 ^ 29 -> glegal (Z.of_nat (alen mt)) (reps mt) (fun _ => []) os -> gops_size os < 2 ^ 63 ->
  exists m rs, grun mt (msg_zero mt) os = Ok m /\
    wire_tags rs (m_Encode m) /\ (forall f, occ_tags f rs = gspec os f) /\
    (forall f T, 0 <= f < Z.of_nat (alen mt) -> ~ In f (reps mt) ->
       (forall w b, last (gspec os f) = Some (w, b) -> conforms T w) ->
       m_get T m f = Ok (read_single T (map fst (gspec os f)))) /\
    (forall f, 0 <= f < Z.of_nat (alen mt) -> In f (reps mt) ->
       Forall (fun p => wire_type p.1 = 2) (gspec os f) ->
       forall mt' x n, (length (gspec os f) < n)%nat ->
         m_iterate n mt' m f x = decode_each mt' x (read_repeated (map fst (gspec os f)))).
Proof.
  intros Hn Hok Hsz.
  destruct (grep_run mt os (fun _ => []) (msg_zero mt) [] Hn (grep_zero mt) Hok) as (m & cs & He & Hm & Hl).
  { exact Hsz. }
  destruct Hm as [Hbuf Hv Hwf Hlen Hidx Hs]. destruct m as [buf o]. cbn [mbuf moff] in *. subst buf.
  pose proof (avalid_valid _ Hv) as Hcv. fold (gspec os) in Hs.
  exists (mkMsg (flat (map fst cs)) o), (map arecord cs). split_and!.
  - exact He.
  - apply wire_tags_concrete. exists cs. auto.
  - intros f. symmetry. apply Hs.
  - intros f T Hf Hnr Hc. rewrite Hs, occ_tags_occ.
    apply (m_get_indexes (reps mt)); try assumption.
    + unfold in_range. lia.
    + apply not_rep_false, Hnr.
    + intros w Hw. rewrite <- occ_tags_occ in Hw. rewrite Hs in Hc.
      change (map fst) with (fmap (M:=list) (@fst wval bool)) in Hw. rewrite fmap_last in Hw.
      destruct (last (occ_tags f (map arecord cs))) as [[w' b]|]; [|discriminate].
      cbn in Hw. injection Hw as <-. eapply Hc. reflexivity.
  - intros f Hf Hr Hb mt' x n Hn'. unfold m_iterate.
    rewrite (m_Iter_ok (reps mt) o (map fst cs) f); try assumption; [|unfold in_range; lia|apply is_repeated_In, Hr].
    cbn [rbind]. rewrite iterate_rest; try assumption.
    + rewrite <- occ_tags_occ, <- Hs. apply decode_upto_each. unfold read_repeated. rewrite !map_length. exact Hn'.
    + apply occ_all_bytes. rewrite <- occ_tags_occ, <- Hs. apply Forall_map. exact Hb.
Qed.
