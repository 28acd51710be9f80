(** * Proofs: sub-messages, byte-level effect of setters, foreign encodings, safety of accessors *)
From Verif Require Import Runtime Spec VarintFacts OffsetsFacts RecFacts DecodeFacts DecodeClass SetFacts GetFacts IterFacts Fuel Api ApiFacts ApiInv Core Core2 Core3.
From Coq Require Import ZifyBool.

(** ** Bytes *)
Lemma payload_bytes w pb : payload_enc w pb -> Forall is_byte pb.
Proof.
  destruct w; cbn [payload_enc].
  - apply is_varint_bytes.
  - intros (_ & H & _). exact H.
  - intros (lb & -> & H & Hb). apply Forall_app. split; [eapply is_varint_bytes, H|exact Hb].
  - intros (_ & H & _). exact H.
Qed.

Lemma flat_bytes cs : Forall cvalid cs -> Forall is_byte (flat cs).
Proof.
  induction 1 as [|c cs [Ht Hp] Hcs IH]; cbn [flat]; [constructor|].
  unfold cbytes. apply Forall_app. split; [|exact IH]. apply Forall_app. split.
  - eapply is_varint_bytes, Ht.
  - eapply payload_bytes, Hp.
Qed.

Lemma rep_bytes mt sc m cs : Rep mt sc m cs -> Forall is_byte (mbuf m).
Proof. intros Hm. rewrite (rep_buf _ _ _ _ Hm). apply flat_bytes, cmin_valid, (rep_min _ _ _ _ Hm). Qed.

(** ** C19 *)
Lemma submessage_round_trip mt sc os m f mt' sc' os' x y :
  schema_ok mt sc -> history mt sc os m -> sc f = Some (KSingle PBytes) ->
  schema_ok mt' sc' -> history mt' sc' os' x -> of_type mt' y ->
  ops_size os + 20 + ops_size os' < 2 ^ 63 ->
  exists m' y', m_SetMessage m f x = Ok m' /\ m_Message mt' m' f y = Ok (true, None, y') /\
    m_Encode y' = m_Encode x /\ same_answers sc' x y'.
Proof.
  intros Hsc Hh Hf Hsc' Hh' Hy Hsz. pose proof (ops_size_nonneg os). pose proof (ops_size_nonneg os').
  destruct (hist_rep mt sc os m) as (cs & Hm & _ & Hl); try assumption; [lia|].
  destruct (hist_rep mt' sc' os' x) as (cs' & Hx & _ & Hl'); try assumption; [lia|].
  destruct (rep_set' mt sc m cs f PBytes (VBytes (Some (m_Encode x)))) as (m' & cs1 & He & Hm' & Hlm & Hne & Hfo); try assumption.
  { cbn. eapply rep_bytes, Hx. }
  { cbn [pval_size]. fold (zlen (m_Encode x)). unfold m_Encode. lia. }
  destruct (rep_decode_same mt' sc' x cs' y) as (y' & Hd & Hb & Hy'); try assumption; [lia|].
  exists m', y'. split_and!; [exact He| |exact Hb|].
  - rewrite m_Message_get, (rep_get mt sc m' cs1) by assumption. cbn [rbind].
    unfold read_single. rewrite <- last_last_only, Hfo. cbn [last wire_of value_of]. rewrite Hd. reflexivity.
  - intros g. eapply same_at_occ; try eassumption; [lia|rewrite Hb; lia|reflexivity].
Qed.

(** ** C21, C23, C24: the bytes a setter leaves *)
Lemma set_bytes mt sc os m f T v :
  schema_ok mt sc -> history mt sc os m -> sc f = Some (KSingle T) -> in_type T v ->
  ops_size os + 20 + pval_size v < 2 ^ 63 ->
  exists m' tb pb', m_set T m f v = Ok m' /\
    minimal_tag_enc (f, wire_of T v) tb /\ canonical_payload (wire_of T v) pb' /\
    ((spec_run sc os f = [] /\ m_Encode m' = m_Encode m ++ tb ++ pb') \/
     (exists w rs1 b1 pb rs2 b2, spec_run sc os f = [w] /\ payload_enc w pb /\
        wire rs1 b1 /\ wire rs2 b2 /\ occ f rs2 = [] /\
        m_Encode m = b1 ++ tb ++ pb ++ b2 /\
        ((length pb' = length pb /\ m_Encode m' = b1 ++ tb ++ pb' ++ b2) \/
         (length pb' <> length pb /\ m_Encode m' = b1 ++ b2 ++ tb ++ pb')))).
Proof.
  intros Hsc Hh Hf Hin Hsz.
  assert (Hps : 0 <= pval_size v) by (destruct v as [| | |[|]]; cbn; lia).
  destruct (hist_rep mt sc os m) as (cs & Hm & Hs & Hl); try assumption; [lia|].
  destruct (rep_set mt sc m cs f T v) as (m' & cs' & new & He & Hm' & Hnew & Hnf & Hnw & Hcan & Hpl & Hres & _); try assumption; [lia|].
  exists m', (ct new), (cp new). split; [exact He|].
  split. { destruct Hnew as [_ Hmin]. unfold crecord in Hmin. rewrite Hnf, Hnw in Hmin. exact Hmin. }
  split; [exact Hcan|]. unfold m_Encode. rewrite (rep_buf _ _ _ _ Hm), (rep_buf _ _ _ _ Hm').
  specialize (Hs f). unfold view in Hs. rewrite Hf in Hs. pose proof (cmin_valid _ (rep_min _ _ _ _ Hm)) as Hv.
  clear -Hs Hres Hv. destruct Hres as [cs Ho|pre c post Hc Ho Hcp Hct _|pre c post Hc Ho Hcp Hct].
  - left. rewrite Ho in Hs. split; [exact Hs|]. rewrite flat_app. cbn [flat]. rewrite app_nil_r. reflexivity.
  - right. apply Forall_app in Hv as [Hv1 Hv2]. apply Forall_cons in Hv2 as [[_ Hp] Hv2].
    exists (cw c), (map crecord pre), (flat pre), (cp c), (map crecord post), (flat post). split_and!; try assumption.
    + rewrite Hs, map_app, occ_app. cbn [map occ crecord]. rewrite Hc, Z.eqb_refl, Ho. apply last_only_snoc.
    + apply wire_concrete. eauto.
    + apply wire_concrete. eauto.
    + rewrite flat_app. cbn [flat]. unfold cbytes. rewrite Hct, <- !app_assoc. reflexivity.
    + left. split; [unfold zlen in Hcp; lia|]. rewrite flat_app. cbn [flat]. unfold cbytes. rewrite <- !app_assoc. reflexivity.
  - right. apply Forall_app in Hv as [Hv1 Hv2]. apply Forall_cons in Hv2 as [[_ Hp] Hv2].
    exists (cw c), (map crecord pre), (flat pre), (cp c), (map crecord post), (flat post). split_and!; try assumption.
    + rewrite Hs, map_app, occ_app. cbn [map occ crecord]. rewrite Hc, Z.eqb_refl, Ho. apply last_only_snoc.
    + apply wire_concrete. eauto.
    + apply wire_concrete. eauto.
    + rewrite flat_app. cbn [flat]. unfold cbytes. rewrite Hct, <- !app_assoc. reflexivity.
    + right. split; [unfold zlen in Hcp; lia|]. rewrite !flat_app. cbn [flat]. unfold cbytes. rewrite !app_nil_r. reflexivity.
Qed.

(** At most one record per non-repeated field. *)
Lemma set_result_sparse sc f new o o' cs cs' :
  set_result f new o o' cs cs' -> cf new = f -> sparse sc (map crecord cs) -> sparse sc (map crecord cs').
Proof.
  intros Hres Hnf Hs g T Hg. specialize (Hs g T Hg).
  destruct (set_result_occ _ _ _ _ _ _ Hres Hnf) as [Hne _].
  destruct (decide (g = f)) as [->|Hgf]; [|rewrite Hne by exact Hgf; exact Hs].
  clear Hne. destruct Hres as [cs Ho|pre c post Hc Ho Hcp Hct _|pre c post Hc Ho Hcp Hct];
    rewrite ?map_app, ?occ_app in *; cbn [map occ crecord] in *; rewrite ?Hnf, ?Hc, ?Z.eqb_refl, ?Ho in *;
    rewrite ?app_length in *; cbn [length] in *; lia.
Qed.

Lemma run_sparse mt sc os : forall m cs,
  schema_ok mt sc -> Rep mt sc m cs -> sparse sc (map crecord cs) ->
  Forall (op_ok (Z.of_nat (alen mt)) sc) os -> Forall (op_sparse sc) os -> zlen (mbuf m) + ops_size os < 2 ^ 63 ->
  exists m' cs', run mt sc m os = Ok m' /\ Rep mt sc m' cs' /\ sparse sc (map crecord cs').
Proof.
  induction os as [|o os IH]; intros m cs Hsc Hm Hsp Hok Hos Hsz; [exists m, cs; auto|].
  apply Forall_cons in Hok as [Ho Hok]. apply Forall_cons in Hos as [Hs1 Hos]. rewrite ops_size_cons in Hsz.
  pose proof (ops_size_nonneg os) as Hnn. pose proof (op_size_nonneg o).
  assert (Hstep : exists m1 cs1, step mt sc m o = Ok m1 /\ Rep mt sc m1 cs1 /\ sparse sc (map crecord cs1) /\
                    zlen (mbuf m1) <= zlen (mbuf m) + op_size o).
  { assert (Hlen : forall m1, step mt sc m o = Ok m1 -> zlen (mbuf m1) <= zlen (mbuf m) + op_size o).
    { intros m1 E. destruct (rep_step mt sc m cs o (view sc (map crecord cs))) as (m2 & cs2 & E2 & _ & _ & Hl & _); try assumption; [reflexivity|lia|].
      rewrite E in E2. injection E2 as <-. exact Hl. }
    destruct o as [f v|f x| |rs bs]; cbn [op_ok op_size step op_sparse] in *.
    - destruct Ho as (T & Hf & Hin). rewrite Hf in *.
      destruct (rep_set mt sc m cs f T v) as (m' & cs' & new & He & Hm' & Hnew & Hnf & Hnw & Hcan & Hpl & Hres & _); try assumption; [lia|].
      exists m', cs'. split_and!; auto. eapply set_result_sparse; eassumption.
    - destruct Ho as (Hf & Hx). destruct (rep_append mt sc m cs f x) as (m' & new & He & Hm' & Hnew & Hnf & _); try assumption;
        [unfold zlen in *; lia|].
      exists m', (cs ++ [new]). split_and!; auto. intros g T Hg. rewrite map_app, occ_app. cbn [map occ crecord]. rewrite Hnf.
      destruct (Z.eqb_spec f g) as [<-|]; [congruence|]. rewrite app_nil_r. eapply Hsp, Hg.
    - destruct (rep_reset mt sc m (rep_len _ _ _ _ Hm)) as (m' & He & Hm' & _). exists m', []. split_and!; auto. intros g T Hg. cbn. lia.
    - destruct Ho as (Hw & Hty). destruct (rep_decode mt sc m rs bs) as (m' & cs' & He & Hb & Hm' & Hrs & _); try assumption;
        [apply (rep_len _ _ _ _ Hm)|unfold zlen in *; lia|].
      exists m', cs'. rewrite He in *. cbn [rbind] in *. split_and!; auto. rewrite Hrs. exact Hs1. }
  destruct Hstep as (m1 & cs1 & He & Hm1 & Hsp1 & Hl1). cbn [run]. rewrite He. cbn [rbind].
  apply (IH m1 cs1); try assumption. lia.
Qed.

Lemma one_record mt sc os m :
  schema_ok mt sc -> history mt sc os m -> Forall (op_sparse sc) os -> ops_size os < 2 ^ 63 ->
  exists rs, wire_min rs (m_Encode m) /\ sparse sc rs.
Proof.
  intros Hsc [Hok Hr] Hos Hsz.
  destruct (run_sparse mt sc os (msg_zero mt) []) as (m' & cs & He & Hm & Hsp); try assumption.
  - apply rep_zero.
  - intros f T Hf. cbn. lia.
  - rewrite Hr in He. injection He as <-. exists (map crecord cs). split; [|exact Hsp].
    apply wire_min_concrete. exists cs. split_and!; [apply (rep_min _ _ _ _ Hm)|reflexivity|]. symmetry. apply (rep_buf _ _ _ _ Hm).
Qed.

(** ** The encoding determines the records *)
Lemma payload_det w w' pb :
  wire_type w = wire_type w' -> payload_enc w pb -> payload_enc w' pb -> w = w'.
Proof.
  destruct w, w'; cbn [wire_type payload_enc]; try discriminate; intros _.
  - intros (? & ? & ? & ? & ? & ? & <- & _) (? & ? & ? & ? & ? & ? & <- & _). reflexivity.
  - intros (_ & _ & <-) (_ & _ & <-). reflexivity.
  - intros (lb & -> & Hv & _) (lb' & He & Hv' & _).
    pose proof (uvarint_spec _ _ bs Hv) as H1. pose proof (uvarint_spec _ _ bs0 Hv') as H2. rewrite <- He, H1 in H2.
    injection H2 as _ H2. apply app_inj_1 in He as [_ ->]; [reflexivity|]. unfold zlen in H2. lia.
  - intros (_ & _ & <-) (_ & _ & <-). reflexivity.
Qed.

Lemma crec_det c c' : cvalid c -> cvalid c' -> ct c = ct c' -> cp c = cp c' -> c = c'.
Proof.
  intros [Ht Hp] [Ht' Hp'] Et Ep. rewrite <- Et in Ht'. rewrite <- Ep in Hp'.
  pose proof (uvarint_spec' _ _ (proj2 Ht)) as H1. pose proof (uvarint_spec' _ _ (proj2 Ht')) as H2. rewrite H1 in H2.
  injection H2 as H2. cbn [crecord fst snd] in H2.
  pose proof (wire_type_range (cw c)). pose proof (wire_type_range (cw c')).
  assert (Hf : cf c = cf c') by lia. assert (Hw : wire_type (cw c) = wire_type (cw c')) by lia.
  pose proof (payload_det _ _ _ Hw Hp Hp') as Hw'.
  destruct c, c'; cbn in *; congruence.
Qed.

Lemma flat_det cs cs' : Forall cvalid cs -> Forall cvalid cs' -> zlen (flat cs) < 2 ^ 63 -> flat cs = flat cs' -> cs = cs'.
Proof.
  revert cs'. induction cs as [|c cs IH]; intros [|c' cs'] Hv Hv' Hl He; [reflexivity|..].
  - exfalso. cbn [flat] in He. apply Forall_cons in Hv' as [[Ht _] _]. apply tag_len in Ht. symmetry in He.
    apply app_eq_nil in He as [He _]. apply app_eq_nil in He as [He _]. rewrite He, zlen_nil in Ht. lia.
  - exfalso. cbn [flat] in He. apply Forall_cons in Hv as [[Ht _] _]. apply tag_len in Ht.
    apply app_eq_nil in He as [He _]. apply app_eq_nil in He as [He _]. rewrite He, zlen_nil in Ht. lia.
  - apply Forall_cons in Hv as [Hc Hv]. apply Forall_cons in Hv' as [Hc' Hv']. cbn [flat] in *.
    destruct (cbytes_det c c' (flat cs) (flat cs') Hc Hc' Hl He) as (Et & Ep & Er).
    f_equal; [apply crec_det; assumption|]. apply IH; try assumption. rewrite zlen_app in Hl. pose proof (zlen_nonneg (cbytes c)). lia.
Qed.

Lemma wire_det rs rs' bs : Z.of_nat (length bs) < 2 ^ 63 -> wire rs bs -> wire rs' bs -> rs = rs'.
Proof.
  intros Hl Hw Hw'. apply wire_concrete in Hw as (cs & Hv & <- & <-). apply wire_concrete in Hw' as (cs' & Hv' & <- & He).
  rewrite (flat_det cs cs'); auto.
Qed.

Definition part (c : crec) : record * list Z := (crecord c, cbytes c).

Lemma wire_parts_concrete ps bs :
  wire_parts ps bs <-> exists cs, Forall cvalid cs /\ map part cs = ps /\ flat cs = bs.
Proof.
  split.
  - intros [Hp ->]. induction Hp as [|[r b] ps (tb & pb & Hb & Ht & Hpb) Hp (cs & Hv & <- & Hf)]; [exists []; auto|].
    destruct r as [f w]. cbn [fst snd] in *. exists (mkCrec f w tb pb :: cs). split_and!.
    + constructor; [|exact Hv]. split; assumption.
    + cbn [map]. f_equal. unfold part, crecord, cbytes. cbn. rewrite Hb. reflexivity.
    + cbn [flat map concat snd]. rewrite Hf, Hb. reflexivity.
  - intros (cs & Hv & <- & <-). split.
    + apply Forall_map. eapply Forall_impl; [exact Hv|]. intros c [Ht Hp]. exists (ct c), (cp c). auto.
    + clear. induction cs as [|c cs IH]; [reflexivity|]. cbn [flat map concat part snd]. rewrite IH. reflexivity.
Qed.

(** ** C26 *)
Lemma run_undeclared mt sc os : forall m cs,
  schema_ok mt sc -> Rep mt sc m cs ->
  Forall (op_ok (Z.of_nat (alen mt)) sc) os -> Forall is_mutation os -> zlen (mbuf m) + ops_size os < 2 ^ 63 ->
  exists m' cs', run mt sc m os = Ok m' /\ Rep mt sc m' cs' /\
    undeclared sc (map part cs') = undeclared sc (map part cs).
Proof.
  induction os as [|o os IH]; intros m cs Hsc Hm Hok Hos Hsz; [exists m, cs; auto|].
  apply Forall_cons in Hok as [Ho Hok]. apply Forall_cons in Hos as [Hs1 Hos]. rewrite ops_size_cons in Hsz.
  pose proof (ops_size_nonneg os) as Hnn. pose proof (op_size_nonneg o).
  assert (Hstep : exists m1 cs1, step mt sc m o = Ok m1 /\ Rep mt sc m1 cs1 /\
            undeclared sc (map part cs1) = undeclared sc (map part cs) /\
                    zlen (mbuf m1) <= zlen (mbuf m) + op_size o).
  { assert (Hlen : forall m1, step mt sc m o = Ok m1 -> zlen (mbuf m1) <= zlen (mbuf m) + op_size o).
    { intros m1 E. destruct (rep_step mt sc m cs o (view sc (map crecord cs))) as (m2 & cs2 & E2 & _ & _ & Hl & _); try assumption; [reflexivity|lia|].
      rewrite E in E2. injection E2 as <-. exact Hl. }
    assert (Hdecl : forall c, sc (cf c) <> None -> undeclared sc [part c] = []).
    { intros c Hc. unfold undeclared. rewrite filter_cons_False by exact Hc. reflexivity. }
    assert (Happ : forall l1 l2, undeclared sc (l1 ++ l2) = undeclared sc l1 ++ undeclared sc l2) by (intros; apply filter_app).
    assert (Hcons : forall c cs, sc (cf c) <> None -> undeclared sc (map part (c :: cs)) = undeclared sc (map part cs)).
    { intros c cs0 Hc. cbn [map]. unfold undeclared. rewrite filter_cons_False by exact Hc. reflexivity. }
    destruct o as [f v|f x| |rs bs]; cbn [op_ok op_size step is_mutation] in *; try contradiction.
    - destruct Ho as (T & Hf & Hin). rewrite Hf in *.
      destruct (rep_set mt sc m cs f T v) as (m' & cs' & new & He & Hm' & Hnew & Hnf & Hnw & Hcan & Hpl & Hres & _); try assumption; [lia|].
      exists m', cs'. split_and!; auto.
      clear -Hres Hnf Hf Happ Hdecl Hcons. destruct Hres as [cs Ho|pre c post Hc Ho Hcp Hct _|pre c post Hc Ho Hcp Hct];
        rewrite ?map_app, ?Happ, ?Hcons, ?map_app, ?Happ by congruence; cbn [map]; rewrite ?Hdecl, ?app_nil_r by congruence; reflexivity.
    - destruct Ho as (Hf & Hx). destruct (rep_append mt sc m cs f x) as (m' & new & He & Hm' & Hnew & Hnf & _); try assumption;
        [unfold zlen in *; lia|].
      exists m', (cs ++ [new]). split_and!; auto. rewrite map_app, Happ. cbn [map]. rewrite Hdecl by congruence. apply app_nil_r. }
  destruct Hstep as (m1 & cs1 & He & Hm1 & Hsp1 & Hl1). cbn [run]. rewrite He. cbn [rbind].
  destruct (IH m1 cs1) as (m2 & cs2 & He2 & Hm2 & Hu2); try assumption; [lia|].
  exists m2, cs2. split_and!; auto. congruence.
Qed.

Lemma unknown_fields mt sc os m os2 m' ps ps' :
  schema_ok mt sc -> history mt sc os m -> Forall (op_ok (Z.of_nat (alen mt)) sc) os2 -> Forall is_mutation os2 ->
  ops_size os + ops_size os2 < 2 ^ 63 -> run mt sc m os2 = Ok m' ->
  wire_parts ps (m_Encode m) -> wire_parts ps' (m_Encode m') -> undeclared sc ps' = undeclared sc ps.
Proof.
  intros Hsc Hh Hok Hmu Hsz Hr Hps Hps'. pose proof (ops_size_nonneg os). pose proof (ops_size_nonneg os2).
  destruct (hist_rep mt sc os m) as (cs & Hm & _ & Hl); try assumption; [lia|].
  destruct (run_undeclared mt sc os2 m cs) as (m2 & cs2 & He & Hm2 & Hu); try assumption; [lia|].
  rewrite Hr in He. injection He as <-.
  destruct (rep_run mt sc os2 m cs (view sc (map crecord cs))) as (m3 & cs3 & He & _ & _ & Hl3); try assumption; [reflexivity|lia|].
  rewrite Hr in He. injection He as <-.
  apply wire_parts_concrete in Hps as (ds & Hv & <- & Hfl). apply wire_parts_concrete in Hps' as (ds' & Hv' & <- & Hfl').
  unfold m_Encode in *. rewrite (rep_buf _ _ _ _ Hm) in *. rewrite (rep_buf _ _ _ _ Hm2) in *.
  rewrite (flat_det ds cs), (flat_det ds' cs2); try assumption.
  - apply cmin_valid, (rep_min _ _ _ _ Hm2).
  - rewrite Hfl'. lia.
  - apply cmin_valid, (rep_min _ _ _ _ Hm).
  - rewrite Hfl. lia.
Qed.

(** ** C22 *)
Lemma foreign_varint mt m0 f T v tb vb :
  of_type mt m0 -> 0 <= f < Z.of_nat (alen mt) -> ~ In f (reps mt) ->
  ptype_wire_type T = 0 -> tag_enc (f, WVarint v) tb -> is_varint v vb ->
  (T = PSint32 -> v < 2 ^ 32) ->
  exists m, m_Decode mt m0 (tb ++ vb) = Ok (None, m) /\ m_get T m f = Ok (value_of T (WVarint v)).
Proof.
  intros H0 Hf Hnr HT Ht Hv Hs.
  destruct (decode_accepts mt m0 [(f, WVarint v)] (tb ++ vb)) as (m & He & _ & Hget & _); try assumption.
  - rewrite <- (app_nil_r (tb ++ vb)). constructor; [|constructor]. exists tb, vb. auto.
  - constructor; [cbn; lia|constructor].
  - pose proof (tag_len _ _ Ht). pose proof (is_varint_len _ _ Hv). rewrite app_length. unfold zlen in *. pows. lia.
  - exists m. split; [exact He|]. rewrite (Hget f T Hf Hnr); cbn [occ]; rewrite Z.eqb_refl; [reflexivity|].
    intros w [= <-]. split; [rewrite HT; reflexivity|]. destruct T; auto.
Qed.

(** What GetZigZagInt32 does on every 64-bit wire value. *)
Lemma sint32_wide mt m0 f v tb vb :
  of_type mt m0 -> 0 <= f < Z.of_nat (alen mt) -> ~ In f (reps mt) ->
  tag_enc (f, WVarint v) tb -> is_varint v vb ->
  exists m, m_Decode mt m0 (tb ++ vb) = Ok (None, m) /\ m_get PSint32 m f = Ok (VNum (to_signed 32 (unzigzag v))).
Proof.
  intros H0 Hf Hnr Ht Hv.
  set (c := mkCrec f (WVarint v) tb vb).
  assert (Hfl : tb ++ vb = flat [c]) by (cbn [flat]; rewrite app_nil_r; reflexivity).
  assert (Hcv : cvalid c) by (split; assumption).
  pose proof (tag_len _ _ Ht) as Htl. pose proof (is_varint_len _ _ Hv) as Hvl.
  destruct (decode_msg mt m0 [c]) as (o' & He & Hwf & Hl' & Hi & _).
  - constructor; [exact Hcv|constructor].
  - rewrite <- Hfl, zlen_app. pows. lia.
  - apply of_type_zlen, H0.
  - constructor; [cbn; lia|constructor].
  - exists (mkMsg (tb ++ vb) o'). rewrite Hfl. split; [exact He|]. cbn [m_get mbuf moff]. unfold GetZigZagInt32.
    assert (Hr : in_range o' f) by (unfold in_range; lia).
    assert (Ho : ofun o' f = Some (zlen tb)).
    { rewrite (Hi f Hr). unfold pick. destruct (is_repeated (reps mt) f) eqn:E; [apply is_repeated_In in E; contradiction|].
      cbn [poss c cf ct]. rewrite Z.eqb_refl. cbn [last]. reflexivity. }
    rewrite (with_offset_some o' f _ _ _ Hwf Hr Ho). rewrite <- Hfl, slice_from_app. cbn [rbind].
    rewrite <- (app_nil_r vb), (varint_unzigzag v vb [] Hv). cbn [rbind]. rewrite i32_signed. reflexivity.
Qed.
