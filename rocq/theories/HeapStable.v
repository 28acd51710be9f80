(** * Outstanding views while the message is mutated (C51) *)
From Verif Require Import Heap HeapApi Core Core2 Core4 Core6 HeapFacts HeapSet HeapExec HeapAlias HeapView HeapThms VarintFacts OffsetsFacts RecFacts
  GetFacts Fuel IterFacts ApiInv SetFacts ApiFacts.
From Coq Require Import ZifyBool.

(** ** Iterators depend only on the bytes of their slice *)
Lemma h_from_in_bytes s i d a j : h_from s i = Ok d -> in_bytes d a j -> in_bytes s a j.
Proof.
  destruct s as [s|]; cbn.
  - destruct (Z.leb_spec 0 i), (Z.leb_spec i (slen s)); cbn; intros [= <-]; try done. cbn. intros [-> H']. split; [done|lia].
  - destruct (i =? 0); intros [= <-]; done.
Qed.

Lemma h_find_bytes σ σ' it f : sbytes σ' it = sbytes σ it -> h_find σ' it f = h_find σ it f.
Proof. intros E. unfold h_find. destruct it as [s|]; [|done]. rewrite E. done. Qed.

Lemma h_finds_frame σ σ' P Q f k : only_changes σ σ' P Q -> forall it,
  swf σ it -> (forall a j, in_bytes it a j -> ~ P a j) -> h_finds k σ' it f = h_finds k σ it f.
Proof.
  intros H. induction k as [|k IH]; intros it Hs Hd; [done|]. cbn [h_finds].
  rewrite (h_find_bytes σ σ' it f) by (eapply sbytes_frame; eauto).
  destruct (h_find σ it f) as [[it' w]| | |] eqn:E; try done. cbn [rbind].
  enough (swf σ it' /\ forall a j, in_bytes it' a j -> in_bytes it a j) as [Hs' Hsub].
  { rewrite IH; [done|done|]. intros a j Hj. apply Hd, Hsub, Hj. }
  unfold h_find in E. destruct it as [s|]; [|injection E as <- <-; done].
  destruct (uvarint _) as [len ls]. destruct (h_range _ _ _) as [m| | |]; try done. cbn [rbind] in E.
  destruct (find_pos _ _ _ _) as [[i|]| | |]; try done; cbn [rbind] in E.
  - destruct (h_from (Some s) i) as [r| | |] eqn:E2; try done. cbn [rbind] in E. injection E as <- <-.
    split; [apply (h_from_sub σ _ _ _ Hs E2)|]. intros a j. eapply h_from_in_bytes; eauto.
  - injection E as <- <-. done.
Qed.

(** ** Appending writes only into the spare capacity *)
Lemma append_bytes_spare grow σ h f v σ' h' : hwf σ h -> h_append_bytes grow σ h f v = Ok (σ', h') ->
  only_changes σ σ' (in_spare (h_buf h)) (fun k => h_m h = Some k).
Proof.
  intros Hwf. unfold h_append_bytes. destruct (put_uvarint _ _) as [vl| | |]; try done. cbn [rbind]. intros E.
  pose proof (happendSingle_ok grow σ h f WireBytes vl v Hwf) as H.
  destruct (appendSingle _ _ _ _ _ _) as [[bs o]| | |]; [|congruence|done|done].
  destruct H as (σ1 & h1 & E1 & _ & _ & _ & H & _). rewrite E in E1. injection E1 as <- <-. done.
Qed.

(** A setter of an unset field. *)
Lemma hsetSingle_unset grow σ h f typ vl v σ' h' : hwf σ h -> offsets_get (hoffs σ h) f = Ok (0, false) ->
  hsetSingle grow σ h f typ vl v = Ok (σ', h') ->
  only_changes σ σ' (in_spare (h_buf h)) (fun k => h_m h = Some k).
Proof.
  intros Hwf Hg. unfold hsetSingle.
  destruct (put_uvarint_res MaxVarintLen64 (make_tag f typ)) as [->|(tag & -> & Ht)]; [done|]. rewrite rbind_Ok, Hg, rbind_Ok. cbn iota.
  intros E. pose proof (hset_new_ok grow σ h f tag vl v Hwf Ht) as H.
  destruct (offsets_set _ _ _) as [o| | |]; try done; [|congruence].
  destruct H as (σ1 & h1 & E1 & _ & _ & _ & H & _). rewrite E in E1. injection E1 as <- <-. done.
Qed.

(** The offset of an unset field. *)
Lemma history_unset mt sc os m f T :
  schema_ok mt sc -> history mt sc os m -> ops_size os < 2 ^ 63 -> sc f = Some (KSingle T) -> spec_run sc os f = [] ->
  offsets_get (moff m) f = Ok (0, false).
Proof.
  intros Hsc Hh Hsz Hf Hu. destruct (hist_rep mt sc os m Hsc Hh Hsz) as (cs & Hrep & Hspec & Hlen).
  pose proof (rep_owf _ _ _ _ Hrep) as Howf.
  assert (Hr : in_range (moff m) f).
  { pose proof (rep_len _ _ _ _ Hrep) as HL. unfold in_range. rewrite HL. eapply Hsc, Hf. }
  pose proof (offsets_get_eq _ _ Howf Hr) as Hg.
  rewrite Hspec in Hu. unfold view in Hu. rewrite Hf in Hu.
  assert (Hocc : occ f (map crecord cs) = []).
  { destruct (occ f (map crecord cs)) eqn:E; [done|]. exfalso. unfold last_only in Hu.
    destruct (last (_ :: _)) eqn:E'; [done|]. apply last_None in E'. done. }
  rewrite (rep_idx _ _ _ _ Hrep f Hr), (proj2 (poss_nil_iff f 0 cs) Hocc), pick_nil in Hg. done.
Qed.

(** A setter whose value has the size of the old one writes over the old value. *)
Lemma hsetSingle_same grow σ h f typ vl v off n σ' h' : hwf σ h ->
  offsets_get (hoffs σ h) f = Ok (off, true) -> old_len (sbytes σ (h_buf h)) off typ = Ok n ->
  n = zlen vl + src_len v -> src_apart σ v (in_part (h_buf h) off (off + zlen vl)) -> 0 <= off -> hlen (h_buf h) < 2 ^ 63 ->
  hsetSingle grow σ h f typ vl v = Ok (σ', h') ->
  only_changes σ σ' (in_part (h_buf h) off (off + n)) (fun _ => False) /\ h' = h /\ maps σ' = maps σ.
Proof.
  intros Hwf Hg Ho Hn Hv H0 Hl. unfold hsetSingle.
  destruct (put_uvarint_res MaxVarintLen64 (make_tag f typ)) as [->|(tag & -> & Ht)]; [done|].
  rewrite rbind_Ok, Hg, rbind_Ok, Ho, rbind_Ok. replace (n =? zlen vl + src_len v) with true by lia.
  destruct (h_copy σ (h_buf h) off vl) as [[σ1 n1]| | |] eqn:E1; try done. rewrite rbind_Ok.
  destruct (h_copy σ1 _ _ _) as [[σ2 n2]| | |] eqn:E2; try done. rewrite rbind_Ok. intros [= <- <-].
  pose proof (proj1 Hwf) as Hs.
  destruct (h_copy_part _ _ _ _ _ _ Hs E1) as [F1 _]. destruct (h_copy_frame _ _ _ _ _ _ Hs E1) as [M1 _].
  pose proof (swf_frame _ _ _ _ _ F1 Hs) as Hs1.
  destruct (h_copy_part _ _ _ _ _ _ Hs1 E2) as [F2 _]. destruct (h_copy_frame _ _ _ _ _ _ Hs1 E2) as [M2 _].
  rewrite (src_frame _ _ _ _ _ F1 Hv) in F2. rewrite (src_len_ok _ _ _ Hv) in F2.
  split_and!; [|done|congruence].
  assert (Hn1 : 0 <= n1 <= zlen vl /\ (h_buf h <> None -> n1 <= hlen (h_buf h) /\ off <= hlen (h_buf h))).
  { unfold h_copy in E1. pose proof (zlen_nonneg vl). destruct (h_buf h) as [s|]; cbn [h_from] in E1.
    - destruct (Z.leb_spec 0 off), (Z.leb_spec off (slen s)); cbn in E1; try done. injection E1 as _ <-. cbn [hlen]. lia.
    - destruct (off =? 0); cbn in E1; try done. injection E1 as _ <-. split; [lia|done]. }
  destruct (h_buf h) as [s|] eqn:Eb.
  2:{ eapply only_trans; [exact F1|exact F2|done..]. }
  destruct Hn1 as [Hn1 Hn2]. specialize (Hn2 ltac:(done)). cbn [hlen] in *.
  assert (Hu : u64 (off + u64 n1) = off + n1).
  { rewrite (u64_small n1) by (pows; lia). apply u64_small. pows. lia. }
  rewrite Hu in F2.
  assert (Hsl : 0 <= src_len v) by (destruct v as [bs|[d|]]; [apply zlen_nonneg|destruct Hv as [(l & _ & _ & HH & _) _]; cbn; lia|done]).
  pose proof (zlen_nonneg vl).
  assert (G1 : only_changes σ σ1 (in_part (Some s) off (off + n)) (fun _ => False)).
  { eapply only_weaken; [exact F1| |done]. intros a j _ [-> Hj]. cbn. split; [done|lia]. }
  eapply only_trans; [exact G1|exact F2| |auto].
  intros a j [-> Hj]. left. cbn. split; [done|lia].
Qed.

(** What the setters pass to setSingle. *)
Lemma set_args_canonical T v : in_type T v -> pval_size v < 2 ^ 63 ->
  exists vl x, set_args T v = Ok (wire_type (wire_of T v), vl, x) /\ canonical_payload (wire_of T v) (vl ++ x).
Proof.
  intros Hin Hsz. destruct (m_set_unfold T [] (offsets_zero 2) 1 v Hin Hsz) as (vl & x & E & Hc & _).
  assert (Hfresh : forall typ, typ = 0 \/ typ = 1 \/ typ = 2 \/ typ = 5 -> exists tag o, forall l y,
    setSingle [] (offsets_zero 2) 1 typ l y = Ok (tag ++ l ++ y, o)).
  { intros typ [->|[->|[->| ->]]]; eexists [_], _; intros l y; reflexivity. }
  destruct (Hfresh (wire_type (wire_of T v))) as (tag & o & Hf).
  { destruct (wire_of T v); cbn; auto. }
  rewrite m_set_args in E. cbn [mbuf moff] in E. rewrite Hf in E. cbn [rbind] in E.
  destruct (set_args T v) as [[[typ l] y]| | |] eqn:Ea; try done. cbn [rbind] in E.
  assert (Ht : typ = wire_type (wire_of T v)).
  { clear -Ea Hin. destruct T, v; cbn [set_args] in Ea; try done;
      repeat match type of Ea with context [rbind ?p _] => destruct p; try done; cbn [rbind] in Ea end;
      injection Ea as <- _ _; reflexivity. }
  subst typ. rewrite Hf in E. cbn [rbind] in E. injection E as E. apply app_inv_head in E.
  exists l, y. split; [done|]. rewrite E. exact Hc.
Qed.

Lemma same_size_part grow mt sc os σ h f T v σ' h' rs1 b1 w tb pb rs2 b2 pb' :
  schema_ok mt sc -> history mt sc os (abs σ h) -> hwf σ h -> sc f = Some (KSingle T) -> in_type T v ->
  ops_size os + 20 + pval_size v < 2 ^ 63 ->
  sbytes σ (h_buf h) = b1 ++ tb ++ pb ++ b2 -> wire rs1 b1 -> tag_enc (f, w) tb -> payload_enc w pb ->
  wire rs2 b2 -> occ f rs2 = [] ->
  canonical_payload (wire_of T v) pb' -> length pb' = length pb ->
  h_set grow T σ h f v = Ok (σ', h') ->
  only_changes σ σ' (in_part (h_buf h) (zlen (b1 ++ tb)) (zlen (b1 ++ tb ++ pb))) (fun _ => False) /\ h' = h /\ maps σ' = maps σ.
Proof.
  intros Hsc Hh Hwf Hf Hin Hsz Hb W1 Ht Hp W2 Hocc Hc Hl E.
  assert (Hps : 0 <= pval_size v) by (destruct v as [| | |[|]]; cbn; lia).
  destruct (hist_rep mt sc os (abs σ h) Hsc Hh ltac:(lia)) as (cs & Hrep & _ & Hlen).
  apply wire_concrete in W1 as (cs1 & V1 & <- & <-). apply wire_concrete in W2 as (cs2 & V2 & <- & <-).
  set (c := mkCrec f w tb pb).
  assert (Hcv : cvalid c) by (split; assumption).
  assert (Hall : Forall cvalid (cs1 ++ c :: cs2)) by (apply Forall_app; split; [|constructor]; assumption).
  assert (Hflat : sbytes σ (h_buf h) = flat (cs1 ++ c :: cs2)).
  { rewrite Hb, flat_app. cbn [flat]. unfold cbytes. cbn [c ct cp]. rewrite <- !app_assoc. reflexivity. }
  pose proof (rep_buf _ _ _ _ Hrep) as Hbuf. cbn [abs mbuf] in Hbuf, Hlen.
  assert (cs = cs1 ++ c :: cs2) as ->.
  { apply flat_det; auto.
    - apply cmin_valid, (rep_min _ _ _ _ Hrep).
    - rewrite <- Hbuf. lia.
    - rewrite <- Hbuf. exact Hflat. }
  pose proof (rep_owf _ _ _ _ Hrep) as Howf. cbn [abs moff] in Howf.
  assert (Hr : in_range (hoffs σ h) f).
  { pose proof (rep_len _ _ _ _ Hrep) as HL. unfold in_range. cbn [abs moff] in HL. rewrite HL. eapply Hsc, Hf. }
  pose proof (offsets_get_eq _ _ Howf Hr) as Hg.
  pose proof (rep_idx _ _ _ _ Hrep) as Hi. cbn [abs moff] in Hi.
  assert (Hrepf : is_repeated (reps mt) f = false).
  { destruct (is_repeated (reps mt) f) eqn:E'; [|reflexivity]. apply is_repeated_In in E'. exfalso. eapply Hsc; eassumption. }
  assert (Hof : ofun (hoffs σ h) f = Some (zlen (flat cs1 ++ tb))).
  { rewrite (Hi f Hr). unfold pick. rewrite Hrepf, poss_app, last_app. cbn [poss c cf]. rewrite Z.eqb_refl.
    rewrite (proj2 (poss_nil_iff f _ cs2) Hocc). cbn [last ct]. rewrite zlen_app. done. }
  rewrite Hof in Hg. pose proof (zlen_nonneg (sbytes σ (h_buf h))) as Hnn.
  destruct (set_args_canonical T v Hin ltac:(lia)) as (vl & x & Ea & Hcx).
  assert (Hty : wire_type w = wire_type (wire_of T v)).
  { pose proof (rep_typed _ _ _ _ Hrep) as Hty. apply Forall_app in Hty as [_ Hty]. apply Forall_cons in Hty as [[_ Hc'] _].
    unfold well_typed in Hc'. cbn [crecord c cf cw fst snd] in Hc'. rewrite Hf in Hc'. destruct Hc' as [-> _].
    destruct (conforms_wire_of T v Hin) as [-> _]. done. }
  assert (vl ++ x = pb') as Hpb' by (eapply canonical_payload_unique; eassumption).
  pose proof (zlen_nonneg (flat cs1)). pose proof (zlen_nonneg tb). pose proof (zlen_nonneg pb). pose proof (zlen_nonneg (flat cs2)).
  rewrite Hb, !zlen_app in Hlen.
  assert (Ho : old_len (sbytes σ (h_buf h)) (zlen (flat cs1 ++ tb)) (wire_type (wire_of T v)) = Ok (zlen pb)).
  { rewrite <- Hty. replace (sbytes σ (h_buf h)) with ((flat cs1 ++ tb) ++ pb ++ flat cs2) by (rewrite Hb, <- !app_assoc; done).
    apply old_len_ok; [done|]. lia. }
  unfold h_set in E. rewrite Ea in E. cbn [rbind] in E.
  destruct (hsetSingle_same grow σ h f (wire_type (wire_of T v)) vl (Scratch x) (zlen (flat cs1 ++ tb)) (zlen pb) σ' h') as (A & B & C); try done.
  - cbn [src_len]. rewrite <- zlen_app, Hpb'. unfold zlen. rewrite Hl. done.
  - apply zlen_nonneg.
  - rewrite <- (sbytes_length σ _ (proj1 Hwf)), Hb, !zlen_app. lia.
  - split; [|done]. rewrite app_assoc, (zlen_app (flat cs1 ++ tb)). done.
Qed.

(** ** A foreign write behind a prefix of the message *)
Lemma prefix_frame mt sc os σ h s σ' P Q b1 b2 f T :
  schema_ok mt sc -> history mt sc os (abs σ h) -> ops_size os < 2 ^ 63 -> hwf σ h ->
  h_buf h = Some s -> only_changes σ σ' P Q -> (forall l, h_m h = Some l -> ~ Q l) ->
  sbytes σ (Some s) = b1 ++ b2 -> (forall j, soff s <= j < soff s + zlen b1 -> ~ P (sarr s) j) ->
  (exists b2', sbytes σ' (Some s) = b1 ++ b2' /\ length b2' = length b2) /\
  (sc f = Some (KSingle T) -> (exists rs1, wire rs1 b1) -> (exists rs2, wire rs2 b2 /\ occ f rs2 = []) ->
   exists v v', h_get T σ h f = Ok v /\ h_get T σ' h f = Ok v' /\ hval_of σ' v' = hval_of σ v).
Proof.
  intros Hsc Hh Hsz Hwf Hb F1 Hm Hsb Hpos.
  pose proof (proj1 Hwf) as Hs. rewrite Hb in Hs.
  assert (Hs' : swf σ' (Some s)) by (eapply swf_frame; eauto).
  pose proof (sbytes_length σ _ Hs) as L1. pose proof (sbytes_length σ' _ Hs') as L2.
  assert (Hpre : take (length b1) (sbytes σ' (Some s)) = b1).
  { assert (Heq : sbytes σ' (Some (win s 0 (zlen b1))) = sbytes σ (Some (win s 0 (zlen b1)))).
    { eapply sbytes_frame; [apply F1| |].
      - destruct Hs as (l & Hl & HH). exists l. cbn. rewrite Hsb, zlen_app in L1. cbn [hlen] in L1.
        pose proof (zlen_nonneg b1). pose proof (zlen_nonneg b2). split; [done|]. lia.
      - intros a j [-> Hj]. cbn in *. apply Hpos. lia. }
    assert (Hw : forall τ, sbytes τ (Some (win s 0 (zlen b1))) = take (length b1) (sbytes τ (Some s))).
    { intros τ. cbn [sbytes win sarr soff slen]. rewrite take_take, Z.add_0_r. f_equal.
      rewrite Hsb, zlen_app in L1. cbn [hlen] in L1. unfold zlen in *. lia. }
    rewrite !Hw, Hsb, take_app in Heq. done. }
  assert (Hsplit : sbytes σ' (Some s) = b1 ++ drop (length b1) (sbytes σ' (Some s))).
  { rewrite <- Hpre at 1. rewrite take_drop. done. }
  assert (Hl2 : length (drop (length b1) (sbytes σ' (Some s))) = length b2).
  { rewrite drop_length. rewrite Hsb in L1. unfold zlen in *. rewrite app_length in L1. lia. }
  split; [eauto|].
  intros Hf W1 W2.
  destruct (hist_rep mt sc os (abs σ h) Hsc Hh Hsz) as (cs & Hrep & _ & Hlen).
  destruct Hrep as [Rb Rm Rw Rl Ri Rt]. cbn [abs mbuf moff] in *. rewrite Hb, Hsb in *.
  assert (Hoff : hoffs σ' h = hoffs σ h).
  { unfold hoffs. f_equal. destruct (h_m h) as [l|] eqn:El; [|done]. destruct Hwf as (_ & Hmap & _). rewrite El in Hmap.
    destruct Hmap as [m Hmm]. rewrite Hmm. apply F1; [done|]. apply Hm. done. }
  assert (Hget : m_get T (abs σ' h) f = m_get T (abs σ h) f).
  { unfold abs. rewrite Hb, Hsb, Hsplit, Hoff.
    apply (m_get_prefix mt sc _ b1 b2 _ cs); try done.
    - apply cmin_valid, Rm.
    - unfold in_range. rewrite Rl. eapply Hsc, Hf.
    - destruct (is_repeated (reps mt) f) eqn:E; [|reflexivity]. apply is_repeated_In in E. exfalso. eapply Hsc; eassumption.
    - rewrite <- Rb. lia.
    - unfold zlen. rewrite Hl2. done.
    - eapply Forall_impl; [exact Rt|]. intros ? [_ ?]. done. }
  assert (Hok : m_get T (abs σ h) f = Ok (read_single T (occ f (map crecord cs)))).
  { apply (rep_get mt sc); try done.
    - split; cbn [abs mbuf moff]; try done. rewrite Hb, Hsb. done.
    - cbn [abs mbuf]. rewrite Hb, Hsb. lia. }
  assert (Hwf' : hwf σ' h).
  { destruct Hwf as (_ & Hmap & Hz). split_and!; [rewrite Hb; done| |rewrite Hb; done].
    destruct (h_m h); [|done]. apply F1. done. }
  pose proof (h_get_refines T σ h f Hwf) as G1. pose proof (h_get_refines T σ' h f Hwf') as G2.
  rewrite Hget in G2. rewrite Hok in G1, G2.
  destruct G1 as (v & V & HV). destruct G2 as (v' & V' & HV'). exists v, v'. split_and!; try done. congruence.
Qed.
