(** * The structs are the byte-and-position machine of SpecPos.v *)
From Verif Require Import Api Spec SpecScan SpecFind SpecPos GenApi VarintFacts OffsetsFacts RecFacts DecodeFacts GetFacts SetFacts ApiFacts.
From Verif Require Import Fuel Core Core5 Core6 ScanFacts FindFacts.
From Coq Require Import ZifyBool.

(** One mutating call on the struct (the error of Decode is not a failure here). *)
Definition p_step (mt : mtype) (m : msg) (c : mutation) : res msg :=
  match c with
  | PSet f T v => m_set T m f v
  | PAppend f x => m_append m f x
  | PDecode bs => let* (_, m') := m_Decode mt m bs in Ok m'
  | PReset bs => m_Reset m bs
  end.
Fixpoint p_run (mt : mtype) (m : msg) (cs : list mutation) : res msg :=
  match cs with [] => Ok m | c :: cs => let* m := p_step mt m c in p_run mt m cs end.

Lemma mutation_size_nonneg c : 0 <= mutation_size c.
Proof. destruct c as [f T v|f x|bs|bs]; cbn; try lia. destruct v as [|?|?|[?|]]; cbn; lia. Qed.

Section Pos.
Context (mt : mtype).
Local Notation n := (Z.of_nat (alen mt)).
Hypothesis (Hn : n <= 2 ^ 29).

Definition pinv (M : Z) (m : msg) (s : pstate) : Prop :=
  of_type mt m /\ owf (moff m) /\ mbuf m = pbytes s /\ Forall is_byte (pbytes s) /\ plen s <= M /\
  forall f, 0 <= f < n -> ofun (moff m) f = ppos s f /\ forall p, ppos s f = Some p -> 1 <= p <= M.

Definition agrees_with (M : Z) (r : outcome_of) (x : res msg) : Prop :=
  match r with
  | Reached s => exists m, x = Ok m /\ pinv M m s
  | OBeyond => x = PastLen
  | OFault => x = Panic
  | OLoops => x = OutOfFuel
  end.

Lemma pinv_range M m s f : pinv M m s -> 0 <= f < n -> in_range (moff m) f.
Proof. intros (Ht & _) Hf. unfold in_range. rewrite (of_type_zlen _ _ Ht). exact Hf. Qed.

Lemma minimal_small v b : is_minimal_varint v b -> 1 <= Z.of_nat (length b) <= 10 /\ Forall is_byte b.
Proof.
  intros [H _]. pose proof (is_varint_len _ _ H) as Hl. unfold zlen in Hl. split; [lia|].
  destruct H as (i & l & -> & Hi & Hl2 & _). apply Forall_app. split; [|constructor; [unfold is_byte; lia|constructor]].
  eapply Forall_impl; [exact Hi|]. intros x Hx. cbn in Hx. unfold is_byte. lia.
Qed.

Lemma payload_bytes w db : canonical_payload w db -> Forall is_byte db.
Proof.
  destruct w; cbn.
  - intros H. apply (minimal_small _ _ H).
  - intros (_ & H & _). exact H.
  - intros (lb & -> & H & Hb). apply Forall_app. split; [apply (minimal_small _ _ H)|exact Hb].
  - intros (_ & H & _). exact H.
Qed.

Lemma wire_type_of T v : in_type T v -> wire_type (wire_of T v) = ptype_wire_type T.
Proof. intros H. destruct T, v; cbn in *; try contradiction; reflexivity. Qed.

(** The tag bytes the code writes. *)
Lemma tag_bytes f w : 0 <= f < n -> exists tb, put_uvarint MaxVarintLen64 (make_tag f (wire_type w)) = Ok tb /\ minimal_tag_enc (f, w) tb.
Proof.
  intros Hf. assert (Hw : 0 <= wire_type w < 8) by (destruct w; cbn; lia).
  assert (H29 : n <= 536870912) by exact Hn.
  rewrite make_tag_ok by (pows; lia). destruct (put_min MaxVarintLen64 (8 * f + wire_type w)) as (tb & Hp & Hm).
  - pows. lia.
  - change (2 ^ (7 * Z.of_nat MaxVarintLen64)) with 1180591620717411303424. lia.
  - unfold MaxVarintLen64. lia.
  - exists tb. split; [exact Hp|]. split; [cbn; lia|exact Hm].
Qed.

Lemma enc_unique f w tb db tb' db' : encodes f w tb db -> minimal_tag_enc (f, w) tb' -> canonical_payload w db' -> tb' = tb /\ db' = db.
Proof.
  intros [[_ H1] H2] [_ H3] H4. split; [eapply minimal_varint_unique; eassumption|eapply canonical_payload_unique; eassumption].
Qed.

(** Adding a record at the end. *)
Lemma add_record M m s f w tb db x : pinv M m s -> 0 <= f < n -> encodes f w tb db ->
  x = plen s + Z.of_nat (length tb) -> M + Z.of_nat (length tb) + Z.of_nat (length db) < 2 ^ 62 ->
  exists o', offsets_set (moff m) f (u64 (zlen (mbuf m ++ tb))) = Ok o' /\
    pinv (M + Z.of_nat (length tb) + Z.of_nat (length db)) (mkMsg (mbuf m ++ tb ++ db) o') (mkP (pbytes s ++ tb ++ db) (pset (ppos s) f x)).
Proof.
  intros Hinv Hf Henc -> HM. pose proof (pinv_range _ _ _ _ Hinv Hf) as Hr. destruct Hinv as (Ht & Hwf & Hbuf & Hb & Hl & Hpos).
  assert (Htl : 1 <= Z.of_nat (length tb)) by (destruct Henc as [[_ H1] _]; apply minimal_small in H1; lia).
  unfold plen in *. change (2 ^ 62) with 4611686018427387904 in HM.
  assert (Ez : zlen (mbuf m ++ tb) = Z.of_nat (length (pbytes s)) + Z.of_nat (length tb)) by (rewrite Hbuf; unfold zlen; rewrite app_length; lia).
  rewrite Ez. rewrite u64_small by (pows; lia).
  destruct (offsets_set_ok (moff m) f (Z.of_nat (length (pbytes s)) + Z.of_nat (length tb)) Hwf Hr ltac:(pows; lia)) as (o' & -> & Hwf' & Hlo & Ho & Hne & _).
  exists o'. split; [reflexivity|]. unfold pinv, plen. cbn [moff mbuf pbytes ppos]. split_and!.
  - unfold of_type in *. cbn [moff]. unfold zlen in Hlo. lia.
  - exact Hwf'.
  - rewrite Hbuf. reflexivity.
  - destruct Henc as [[_ H1] H2]. rewrite !Forall_app. split_and!; [exact Hb|apply (minimal_small _ _ H1)|apply (payload_bytes _ _ H2)].
  - rewrite !app_length. lia.
  - intros g Hg. unfold pset. destruct (decide (g = f)) as [->|Hgf].
    + rewrite Ho. replace (_ =? 0) with false by lia. split; [reflexivity|]. intros p [= <-]. lia.
    + rewrite (Hne g Hgf). destruct (Hpos g Hg) as [H1 H2]. split; [exact H1|]. intros p Hp. apply H2 in Hp. lia.
Qed.

Lemma occupies_old_len T v M m s p k : pinv M m s -> M < 2 ^ 62 -> in_type T v -> 0 <= p <= plen s -> occupies T (pbytes s) p k ->
  old_len (mbuf m) p (wire_type (wire_of T v)) = Ok k /\ - 2 ^ 63 <= k < 2 ^ 63.
Proof.
  intros (Ht & Hwf & Hbuf & Hb & Hl & Hpos) HM Hin Hp Hk. rewrite (wire_type_of _ _ Hin), Hbuf.
  change (2 ^ 62) with 4611686018427387904 in HM. unfold plen in *.
  assert (Hsl : slice_from (pbytes s) p = Ok (at_pos (pbytes s) p)).
  { unfold slice_from. replace ((0 <=? p) && (p <=? zlen (pbytes s))) with true by (unfold zlen; lia). reflexivity. }
  pose proof (at_bytes (pbytes s) p Hb) as Hbp. pose proof (at_small (pbytes s) p) as Hsm. unfold zlen in Hsm.
  unfold old_len. destruct Hk as [v' k' Hw Hv|Hw|Hw|len k' Hw Hv]; rewrite Hw; cbn [Z.eqb Pos.eqb WireVarint WireFixed32 WireFixed64 WireBytes].
  - rewrite Hsl. cbn [rbind]. pose proof (varint_at_small _ _ _ Hbp Hv) as (_ & Hks & _). unfold zlen in Hks.
    apply varint_at_uvarint in Hv; [|exact Hbp]. rewrite Hv. split; [reflexivity|]. pows. lia.
  - split; [reflexivity|]. pows. lia.
  - split; [reflexivity|]. pows. lia.
  - rewrite Hsl. cbn [rbind]. apply varint_at_uvarint in Hv; [|exact Hbp]. rewrite Hv.
    rewrite Z.add_comm, i64_add. split; [reflexivity|]. unfold signed64.
    pose proof (Z.mod_pos_bound (k' + len + 2 ^ 63) (2 ^ 64) ltac:(pows; lia)). revert H. pows. lia.
Qed.

Lemma copy_twice (bs a b : list Z) p : 0 <= p <= zlen bs -> zlen bs < 2 ^ 62 ->
  (let* (b1, k) := copy_at bs p a in
   let* (b2, _) := copy_at b1 (u64 (p + u64 k)) b in Ok b2) =
  Ok (firstn (Z.to_nat p) bs ++ firstn (Z.to_nat (zlen bs - p)) (a ++ b) ++ skipn (Z.to_nat p + length (a ++ b)) bs).
Proof.
  intros Hp Hl. change (2 ^ 62) with 4611686018427387904 in Hl. unfold copy_at at 1. replace ((0 <=? p) && (p <=? zlen bs)) with true by lia.
  cbn [rbind]. set (k := Z.min (zlen bs - p) (zlen a)).
  assert (Hk : 0 <= k <= zlen bs - p) by (unfold k, zlen in *; lia).
  rewrite (u64_small k) by (pows; lia). rewrite u64_small by (pows; lia).
  set (b1 := take _ _ ++ _). assert (Hb1 : zlen b1 = zlen bs).
  { unfold b1, zlen in *. rewrite !app_length, !take_length, drop_length. unfold k, zlen. lia. }
  unfold copy_at. rewrite Hb1. replace ((0 <=? p + k) && (p + k <=? zlen bs)) with true by lia. cbn [rbind]. f_equal.
  set (k2 := Z.min (zlen bs - (p + k)) (zlen b)). assert (Hk2 : 0 <= k2) by (unfold k2, zlen in *; lia).
  assert (E1 : take (Z.to_nat (p + k)) b1 = take (Z.to_nat p) bs ++ take (Z.to_nat k) a).
  { unfold b1. rewrite app_assoc. rewrite take_app_alt; [reflexivity|]. rewrite app_length, !take_length. unfold k, zlen in *. lia. }
  assert (E2 : drop (Z.to_nat (p + k + k2)) b1 = drop (Z.to_nat (p + k + k2)) bs).
  { unfold b1. rewrite app_assoc. rewrite drop_app_ge.
    - rewrite drop_drop. f_equal. rewrite app_length, !take_length. unfold k, zlen in *. lia.
    - rewrite app_length, !take_length. unfold k, zlen in *. lia. }
  rewrite E1, E2, <- app_assoc. f_equal.
  destruct (Z.le_gt_cases (zlen bs - p) (zlen a)) as [Hc|Hc].
  - assert (Ek : k = zlen bs - p) by (unfold k; lia). assert (Ek2 : k2 = 0) by (unfold k2, zlen in *; lia). rewrite Ek2, Ek.
    rewrite take_0. cbn [app]. rewrite (take_app_le a b) by (unfold zlen in *; lia). f_equal.
    rewrite !drop_ge; [reflexivity|..]; rewrite ?app_length; unfold zlen in *; lia.
  - assert (Ek : k = zlen a) by (unfold k; lia). rewrite Ek.
    rewrite (take_ge a) by (unfold zlen; lia).
    destruct (Z.le_gt_cases (zlen bs - (p + k)) (zlen b)) as [Hc2|Hc2].
    + assert (Ek2 : k2 = zlen bs - (p + k)) by (unfold k2; lia).
      rewrite (take_app_ge a b) by (unfold zlen in *; lia). rewrite <- app_assoc. f_equal. rewrite !drop_ge.
      * rewrite !app_nil_r. f_equal. unfold zlen in *. lia.
      * rewrite app_length. unfold zlen in *. lia.
      * unfold zlen in *. lia.
    + assert (Ek2 : k2 = zlen b) by (unfold k2; lia).
      rewrite (take_ge b) by (unfold zlen in *; lia). rewrite (take_ge (a ++ b)) by (rewrite app_length; unfold zlen in *; lia).
      rewrite <- app_assoc. do 2 f_equal. f_equal. rewrite app_length. unfold zlen in *. lia.
Qed.

(** ** Setters *)
Section Set_.
Context (M : Z) (m : msg) (s : pstate) (T : ptype) (f : Z) (v : pval).
Hypothesis (Hinv : pinv M m s) (Hf : 0 <= f < n) (Hin : in_type T v) (HM : M + mutation_size (PSet f T v) < 2 ^ 62).

Lemma set_sound r : sets T f v s r -> agrees_with (M + mutation_size (PSet f T v)) r (m_set T m f v).
Proof.
  assert (HMz : M + (20 + pval_size v) < 4611686018427387904) by exact HM.
  assert (Hvs : 0 <= pval_size v) by (destruct v as [|?|?|[?|]]; cbn; lia).
  assert (H0M : 0 <= M) by (destruct Hinv as (_ & _ & _ & _ & Hl & _); unfold plen in Hl; lia).
  destruct m as [bs o] eqn:Em. rewrite <- Em in *.
  destruct (m_set_unfold T bs o f v Hin ltac:(pows; lia)) as (vl & val & Hset & Hcan & Hsz).
  destruct (tag_bytes f (wire_of T v) Hf) as (tb & Hput & Htag).
  pose proof (pinv_range _ _ _ _ Hinv Hf) as Hr. pose proof Hinv as (Ht & Hwf & Hbuf & Hb & Hl & Hpos).
  assert (Ebs : bs = pbytes s) by (rewrite <- Hbuf, Em; reflexivity).
  assert (Eo : o = moff m) by (rewrite Em; reflexivity).
  pose proof (proj1 (minimal_small _ _ (proj2 Htag))) as Htl.
  destruct (Hpos f Hf) as [Hof Hpf].
  pose proof (offsets_get_eq (moff m) f Hwf Hr) as Hget. rewrite Hof in Hget.
  rewrite Em, Hset. clear Hset. rewrite Eo, Ebs. unfold setSingle, setSingle_ord. rewrite Hput. cbn [rbind].
  assert (Hsz2 : zlen vl + zlen val = Z.of_nat (length (vl ++ val))) by (rewrite app_length; unfold zlen; lia).
  assert (Hsz3 : Z.of_nat (length (vl ++ val)) <= 10 + pval_size v) by (unfold zlen in Hsz; exact Hsz).
  assert (HU : forall tb' db', encodes f (wire_of T v) tb' db' -> tb' = tb /\ db' = vl ++ val).
  { intros tb' db' He. destruct (enc_unique _ _ _ _ _ _ He Htag Hcan) as [-> ->]. auto. }
  assert (Henc : encodes f (wire_of T v) tb (vl ++ val)) by (split; assumption).
  assert (Hweak : forall M' m' s', pinv M' m' s' -> M' <= M + mutation_size (PSet f T v) -> pinv (M + mutation_size (PSet f T v)) m' s').
  { intros M' m' s' (G1 & G2 & G3 & G4 & G5 & G6) HM'. split_and!; try assumption; [lia|].
    intros g Hg. destruct (G6 g Hg) as [G7 G8]. split; [exact G7|]. intros p Hp. apply G8 in Hp. lia. }
  cbn [mutation_size] in *.
  intros [tb' db' He Hp|p tb' db' He Hp Hpl Hk|p k tb' db' b e He Hp Hpl Hk Hne -> -> Hbe Hel|p k tb' db' b e He Hp Hpl Hk Hne -> -> Hbe|p k tb' db' b e He Hp Hpl Hk Hne -> -> Hbe|p Hp Hpl];
    try (destruct (HU _ _ He) as [-> ->]); rewrite Hp in Hget; rewrite Hget; cbn [rbind].
  - rewrite <- Hbuf. destruct (add_record M m s f _ tb (vl ++ val) _ Hinv Hf Henc eq_refl ltac:(pows; lia)) as (o' & Ho & Hi).
    rewrite Ho. cbn [rbind]. exists (mkMsg (mbuf m ++ tb ++ vl ++ val) o'). rewrite <- app_assoc. split; [reflexivity|]. rewrite Hbuf in Hi |- *. apply (Hweak _ _ _ Hi). lia.
  - pose proof (Hpf p Hp) as Hp1. destruct (occupies_old_len T v M m s p _ Hinv ltac:(pows; lia) Hin ltac:(lia) Hk) as [Hol _].
    rewrite <- Hbuf. rewrite Hol. cbn [rbind]. rewrite Hsz2, Z.eqb_refl.
    pose proof (copy_twice (mbuf m) vl val p) as Hc. rewrite Hbuf in *. fold (zlen (pbytes s)) in *. change (plen s) with (zlen (pbytes s)) in *.
    specialize (Hc ltac:(lia) ltac:(pows; lia)).
    destruct (copy_at (pbytes s) p vl) as [[b1 k1]| | |]; cbn [rbind] in *; try discriminate.
    destruct (copy_at b1 (u64 (p + u64 k1)) val) as [[b2 k2]| | |]; cbn [rbind] in *; try discriminate. injection Hc as ->.
    eexists. split; [reflexivity|]. apply (Hweak M); [|lia].
    unfold pinv, plen. cbn [moff mbuf pbytes ppos]. split_and!; try assumption; try reflexivity.
    + rewrite !Forall_app. split_and!; [apply Forall_take, Hb|apply Forall_take, (payload_bytes _ _ Hcan)|apply Forall_drop, Hb].
    + rewrite !app_length, !take_length, drop_length. unfold zlen in *. lia.
  - pose proof (Hpf p Hp) as Hp1. destruct (occupies_old_len T v M m s p _ Hinv ltac:(pows; lia) Hin ltac:(lia) Hk) as [Hol Hkr].
    rewrite <- Hbuf. rewrite Hol. cbn [rbind]. rewrite Hsz2. replace (k =? _) with false by lia. rewrite Hbuf.
    change (plen s) with (zlen (pbytes s)) in *. set (b := p - Z.of_nat (length tb)) in *. set (e := p + k) in *.
    assert (E1 : u64 (p + u64 k) = e). { unfold u64. rewrite Zplus_mod_idemp_r. fold e. apply Z.mod_small. lia. }
    assert (E2 : u64 (p - u64 (zlen tb)) = b). { rewrite (u64_small (zlen tb)) by (unfold zlen; pows; lia). unfold zlen. fold b. apply u64_small. pows. lia. }
    rewrite E1, E2. rewrite (sl_at (pbytes s)) by lia. cbn [rbind].
    unfold copy_at. replace ((0 <=? b) && (b <=? zlen (pbytes s))) with true by lia. cbn [rbind].
    assert (El : zlen (at_pos (pbytes s) e) = zlen (pbytes s) - e) by (unfold zlen in *; rewrite drop_length; lia).
    rewrite El. replace (Z.min (zlen (pbytes s) - b) (zlen (pbytes s) - e)) with (zlen (pbytes s) - e) by lia.
    set (b1 := take (Z.to_nat b) (pbytes s) ++ take _ _ ++ _).
    assert (Hb1 : zlen b1 = zlen (pbytes s)). { unfold b1, zlen in *. rewrite !app_length, !take_length, !drop_length. lia. }
    rewrite Hb1. rewrite (u64_small (e - b)) by (pows; lia). rewrite (u64_small (zlen (pbytes s) - (e - b))) by (pows; lia).
    unfold slice_to, slice_range. rewrite Hb1. replace ((0 <=? 0) && (0 <=? zlen (pbytes s) - (e - b))) with true by lia.
    replace (zlen (pbytes s) - (e - b) <=? zlen (pbytes s)) with true by lia. cbn [rbind].
    set (b2 := take (Z.to_nat (zlen (pbytes s) - (e - b) - 0)) (drop (Z.to_nat 0) b1)).
    assert (Hb2 : b2 = take (Z.to_nat b) (pbytes s) ++ drop (Z.to_nat e) (pbytes s)).
    { unfold b2, b1. change (Z.to_nat 0) with 0%nat. rewrite drop_0, app_assoc. rewrite take_app_alt.
      - f_equal. apply take_ge. rewrite drop_length. unfold zlen in *. lia.
      - rewrite app_length, !take_length, drop_length. unfold zlen in *. lia. }
    destruct (adjust_all_ok (moff m) e (e - b) (map_keys (mkOffsets (adjust_array (oa (moff m)) e (e - b)) (om (moff m)))) Hwf ltac:(lia) ltac:(lia)) as (o1 & Ho1 & Hwf1 & Hlo1 & Hf1 & _).
    { intros g x Hx Hlt. lia. }
    { reflexivity. }
    rewrite Ho1. cbn [rbind].
    set (s1 := mkP b2 (fun g => option_map (fun q => if e <? q then q - (e - b) else q) (ppos s g))).
    assert (Hi1 : pinv M (mkMsg b2 o1) s1).
    { unfold pinv, s1, plen. cbn [moff mbuf pbytes ppos]. split_and!.
      - unfold of_type in *. cbn [moff]. unfold zlen in Hlo1. lia.
      - exact Hwf1.
      - reflexivity.
      - rewrite Hb2. apply Forall_app. split; [apply Forall_take, Hb|apply Forall_drop, Hb].
      - rewrite Hb2, app_length, take_length, drop_length. unfold zlen in *. lia.
      - intros g Hg. destruct (Hpos g Hg) as [Hg1 Hg2]. rewrite Hf1, Hg1. split; [reflexivity|].
        intros q. destruct (ppos s g) as [q0|]; cbn; [|discriminate]. intros [= <-]. specialize (Hg2 q0 eq_refl).
        destruct (Z.ltb_spec e q0); lia. }
    destruct (add_record M (mkMsg b2 o1) s1 f _ tb (vl ++ val) _ Hi1 Hf Henc eq_refl ltac:(pows; lia)) as (o' & Ho & Hi).
    cbn [moff mbuf] in Ho. rewrite Ho. cbn [rbind]. eexists. split; [rewrite <- app_assoc; reflexivity|].
    assert (Epl : plen s1 = zlen (pbytes s) - (e - b)).
    { unfold plen, s1. cbn [pbytes]. rewrite Hb2, app_length, take_length, drop_length. unfold zlen in *. lia. }
    rewrite Epl in Hi. cbn [mbuf pbytes ppos s1] in Hi. rewrite Hb2 in Hi |- *. rewrite <- !app_assoc in *. apply (Hweak _ _ _ Hi). lia.
  - pose proof (Hpf p Hp) as Hp1. destruct (occupies_old_len T v M m s p _ Hinv ltac:(pows; lia) Hin ltac:(lia) Hk) as [Hol Hkr].
    rewrite <- Hbuf. rewrite Hol. cbn [rbind]. rewrite Hsz2. replace (k =? _) with false by lia. rewrite Hbuf.
    change (plen s) with (zlen (pbytes s)) in *. set (b := p - Z.of_nat (length tb)) in *. set (e := p + k) in *.
    assert (E1 : u64 (p + u64 k) = e). { unfold u64. rewrite Zplus_mod_idemp_r. fold e. apply Z.mod_small. lia. }
    assert (E2 : u64 (p - u64 (zlen tb)) = b). { rewrite (u64_small (zlen tb)) by (unfold zlen; pows; lia). unfold zlen. fold b. apply u64_small. pows. lia. }
    rewrite E1, E2. rewrite (sl_at (pbytes s)) by lia. cbn [rbind].
    unfold copy_at. replace ((0 <=? b) && (b <=? zlen (pbytes s))) with true by lia. cbn [rbind].
    assert (El : zlen (at_pos (pbytes s) e) = zlen (pbytes s) - e) by (unfold zlen in *; rewrite drop_length; lia).
    rewrite El. replace (Z.min (zlen (pbytes s) - b) (zlen (pbytes s) - e)) with (zlen (pbytes s) - b) by lia.
    set (b1 := take (Z.to_nat b) (pbytes s) ++ take _ _ ++ _).
    assert (Hb1 : zlen b1 = zlen (pbytes s)). { unfold b1, zlen in *. rewrite !app_length, !take_length, !drop_length. lia. }
    rewrite Hb1.
    assert (E3 : u64 (zlen (pbytes s) - u64 (e - b)) = zlen (pbytes s) + (b - e)).
    { unfold u64. rewrite Zminus_mod_idemp_r. rewrite Z.mod_small by lia. lia. }
    rewrite E3. unfold slice_to, slice_range. rewrite Hb1. replace ((0 <=? 0) && (0 <=? zlen (pbytes s) + (b - e))) with true by lia.
    replace (zlen (pbytes s) + (b - e) <=? zlen (pbytes s)) with false by lia. reflexivity.
  - pose proof (Hpf p Hp) as Hp1. destruct (occupies_old_len T v M m s p _ Hinv ltac:(pows; lia) Hin ltac:(lia) Hk) as [Hol Hkr].
    rewrite <- Hbuf. rewrite Hol. cbn [rbind]. rewrite Hsz2. replace (k =? _) with false by lia. rewrite Hbuf.
    change (plen s) with (zlen (pbytes s)) in *. set (b := p - Z.of_nat (length tb)) in *. set (e := p + k) in *.
    assert (E1 : u64 (p + u64 k) = e mod 18446744073709551616). { unfold u64. rewrite Zplus_mod_idemp_r. reflexivity. }
    assert (E2 : u64 (p - u64 (zlen tb)) = b mod 18446744073709551616). { rewrite (u64_small (zlen tb)) by (unfold zlen; pows; lia). reflexivity. }
    rewrite E1, E2. revert Hkr. pows. intros Hkr.
    unfold slice_from. destruct (_ && _) eqn:Es; [|reflexivity]. cbn [rbind].
    assert (He0 : 0 <= e <= zlen (pbytes s)).
    { destruct (Z.lt_ge_cases e 0) as [Hneg|H0].
      - exfalso. assert (e mod 18446744073709551616 = e + 18446744073709551616); [|lia].
        replace e with (e + 18446744073709551616 + (-1) * 18446744073709551616) at 1 by lia. rewrite Z_mod_plus_full. apply Z.mod_small. lia.
      - rewrite Z.mod_small in Es by lia. lia. }
    assert (Hbneg : b < 0) by lia.
    assert (Eb : b mod 18446744073709551616 = b + 18446744073709551616).
    { replace b with (b + 18446744073709551616 + (-1) * 18446744073709551616) at 1 by lia. rewrite Z_mod_plus_full. apply Z.mod_small. lia. }
    rewrite Eb. unfold copy_at. replace ((0 <=? _) && (_ <=? zlen (pbytes s))) with false by lia. reflexivity.
  - change (plen s) with (zlen (pbytes s)) in *.
    assert (Hsl : slice_from (pbytes s) p = Panic) by (unfold slice_from; replace ((0 <=? p) && (p <=? zlen (pbytes s))) with false by lia; reflexivity).
    rewrite (wire_type_of _ _ Hin). unfold old_len.
    assert (Hcp : forall q, copy_at (pbytes s) p q = Panic) by (intros q; unfold copy_at; replace ((0 <=? p) && (p <=? zlen (pbytes s))) with false by lia; reflexivity).
    assert (Hfx : (ptype_wire_type T = 1 -> zlen vl + zlen val = 8) /\ (ptype_wire_type T = 5 -> zlen vl + zlen val = 4)).
    { rewrite Hsz2. rewrite <- (wire_type_of _ _ Hin). destruct (wire_of T v); cbn in Hcan |- *; (split; intros; try discriminate); destruct Hcan as (Hc & _); lia. }
    destruct T; cbn [ptype_wire_type] in *; cbn [Z.eqb Pos.eqb WireVarint WireFixed32 WireFixed64 WireBytes]; rewrite ?Hsl; cbn [rbind]; try reflexivity;
      rewrite ?(proj1 Hfx eq_refl), ?(proj2 Hfx eq_refl); cbn [Z.eqb Pos.eqb]; rewrite Hcp; reflexivity.
Qed.

Lemma set_total : exists r, sets T f v s r.
Proof.
  assert (HMz : M + (20 + pval_size v) < 4611686018427387904) by exact HM.
  pose proof Hinv as (Ht & Hwf & Hbuf & Hb & Hl & Hpos). destruct (Hpos f Hf) as [_ Hpf].
  assert (Hvs : 0 <= pval_size v) by (destruct v as [|?|?|[?|]]; cbn; lia).
  assert (H0M : 0 <= M) by (unfold plen in Hl; lia).
  destruct (m_set_unfold T [] (mkOffsets [] None) f v Hin ltac:(pows; lia)) as (vl & val & _ & Hcan & _).
  destruct (tag_bytes f (wire_of T v) Hf) as (tb & _ & Htag).
  assert (Henc : encodes f (wire_of T v) tb (vl ++ val)) by (split; assumption).
  destruct (ppos s f) as [p|] eqn:Hp; [|eexists; eapply set_first; eassumption].
  destruct (Z.le_gt_cases p (plen s)) as [Hpl|Hpl]; [|eexists; eapply set_outside; eassumption].
  assert (Hk : exists k, occupies T (pbytes s) p k).
  { destruct (varint_at_total (at_pos (pbytes s) p) (at_bytes _ _ Hb)) as (x & k & Hv).
    assert (Hw : ptype_wire_type T = 0 \/ ptype_wire_type T = 1 \/ ptype_wire_type T = 5 \/ ptype_wire_type T = 2) by (destruct T; cbn; auto).
    destruct Hw as [Hw|[Hw|[Hw|Hw]]]; eexists; [eapply occupies_varint|eapply occupies_fixed64|eapply occupies_fixed32|eapply occupies_bytes]; eassumption. }
  destruct Hk as (k & Hk). destruct (decide (k = Z.of_nat (length (vl ++ val)))) as [->|Hne]; [eexists; eapply set_same; eassumption|].
  set (b := p - Z.of_nat (length tb)). set (e := p + k).
  destruct (decide (b < 0 \/ e < 0 \/ plen s < e)) as [Hc|Hc]; [eexists; eapply set_faults; try eassumption; reflexivity|].
  destruct (Z.le_gt_cases b e) as [Hbe|Hbe]; eexists;
    [apply (set_other T f v s p k tb (vl ++ val) b e)|apply (set_stretches T f v s p k tb (vl ++ val) b e)]; try assumption; try reflexivity; unfold b, e in *; lia.
Qed.
End Set_.

(** ** Appends, Decode, Reset *)
Section Append_.
Context (M : Z) (m : msg) (s : pstate) (f : Z) (x : list Z).
Hypothesis (Hinv : pinv M m s) (Hf : 0 <= f < n) (Hx : Forall is_byte x) (HM : M + mutation_size (PAppend f x) < 2 ^ 62).

Lemma append_enc : exists lb, put_uvarint MaxVarintLen64 (u64 (zlen x)) = Ok lb /\ is_minimal_varint (Z.of_nat (length x)) lb.
Proof.
  assert (HMz : M + (20 + Z.of_nat (length x)) < 4611686018427387904) by exact HM.
  assert (H0M : 0 <= M) by (destruct Hinv as (_ & _ & _ & _ & Hl & _); unfold plen in Hl; lia).
  unfold zlen. rewrite u64_small by (pows; lia). apply put_min; [pows; lia| |unfold MaxVarintLen64; lia].
  change (2 ^ (7 * Z.of_nat MaxVarintLen64)) with 1180591620717411303424. lia.
Qed.

Lemma append_sound r : appends f x s r -> agrees_with (M + mutation_size (PAppend f x)) r (m_append m f x).
Proof.
  assert (HMz : M + (20 + Z.of_nat (length x)) < 4611686018427387904) by exact HM.
  assert (H0M : 0 <= M) by (destruct Hinv as (_ & _ & _ & _ & Hl & _); unfold plen in Hl; lia).
  destruct append_enc as (lb & Hlb & Hmin). pose proof (minimal_small _ _ Hmin) as [Hll _].
  destruct (tag_bytes f (WBytes x) Hf) as (tb & Hput & Htag). pose proof (minimal_small _ _ (proj2 Htag)) as [Htl Htb].
  assert (Hcan : canonical_payload (WBytes x) (lb ++ x)) by (exists lb; auto).
  assert (Henc : encodes f (WBytes x) tb (lb ++ x)) by (split; assumption).
  pose proof (pinv_range _ _ _ _ Hinv Hf) as Hr. pose proof Hinv as (Ht & Hwf & Hbuf & Hb & Hl & Hpos).
  destruct (Hpos f Hf) as [Hof Hpf]. pose proof (offsets_get_eq (moff m) f Hwf Hr) as Hget. rewrite Hof in Hget.
  unfold m_append, AppendBytes. rewrite Hlb. cbn [rbind]. unfold appendSingle.
  change (make_tag f WireBytes) with (make_tag f (wire_type (WBytes x))). rewrite Hput. cbn [rbind].
  intros [tb' db' He Hp|p tb' db' He Hp]; destruct (enc_unique _ _ _ _ _ _ He Htag Hcan) as [<- <-]; rewrite Hp in Hget; rewrite Hget; cbn [rbind mutation_size].
  - destruct (add_record M m s f _ tb (lb ++ x) _ Hinv Hf Henc eq_refl ltac:(rewrite app_length; pows; lia)) as (o' & Ho & Hi).
    rewrite Ho. cbn [rbind]. eexists. split; [rewrite <- app_assoc; reflexivity|].
    destruct Hi as (G1 & G2 & G3 & G4 & G5 & G6). rewrite app_length in *. split_and!; try assumption; [lia|].
    intros g Hg. destruct (G6 g Hg) as [G7 G8]. split; [exact G7|]. intros p Hp'. apply G8 in Hp'. lia.
  - eexists. split; [reflexivity|]. unfold pinv, plen in *. cbn [moff mbuf pbytes ppos]. split_and!; try assumption.
    + rewrite Hbuf, <- app_assoc. reflexivity.
    + rewrite !Forall_app. split_and!; [exact Hb|exact Htb|apply (minimal_small _ _ Hmin)|exact Hx].
    + rewrite !app_length. lia.
    + intros g Hg. destruct (Hpos g Hg) as [G7 G8]. split; [exact G7|]. intros q Hq. apply G8 in Hq. lia.
Qed.

Lemma append_total : exists r, appends f x s r.
Proof.
  destruct append_enc as (lb & _ & Hmin). destruct (tag_bytes f (WBytes x) Hf) as (tb & _ & Htag).
  assert (Henc : encodes f (WBytes x) tb (lb ++ x)) by (split; [exact Htag|exists lb; auto]).
  destruct (ppos s f) as [p|] eqn:Hp; eexists; [eapply append_more|eapply append_first]; eassumption.
Qed.
End Append_.

Lemma decode_sound M m bs r : of_type mt m -> Forall is_byte bs -> 0 <= M -> M + Z.of_nat (length bs) < 2 ^ 62 ->
  decodes n (reps mt) bs r -> agrees_with (M + Z.of_nat (length bs)) r (p_step mt m (PDecode bs)).
Proof.
  intros Ht Hb H0 HM Hd. assert (HMz : M + Z.of_nat (length bs) < 4611686018427387904) by exact HM.
  assert (Hl : Z.of_nat (length bs) < 2 ^ 62) by (pows; lia). assert (Hl63 : zlen bs < 2 ^ 63) by (unfold zlen; pows; lia).
  assert (HR : forall err m' l, m_Decode mt m bs = Ok (err, m') -> positions mt bs l m' ->
    agrees_with (M + Z.of_nat (length bs)) (Reached (mkP bs (fun f => recorded (reps mt) f l None))) (p_step mt m (PDecode bs))).
  { intros err m' l He [Hbuf Hpos]. destruct (m_Decode_bounds _ _ _ _ _ Ht Hl63 He) as (_ & Hwf & Hlo & Hbd).
    exists m'. cbn [p_step]. rewrite He. split; [reflexivity|]. unfold pinv, plen. cbn [pbytes ppos]. split_and!; try assumption; [|lia|].
    - unfold of_type. unfold zlen in Hlo. lia.
    - intros f Hf. assert (Ho : ofun (moff m') f = recorded (reps mt) f l None).
      { unfold ofun. rewrite (Hpos f Hf). destruct (recorded _ _ _ _); reflexivity. }
      split; [exact Ho|]. intros p Hp. rewrite Hp in Ho.
      assert (Hr : in_range (moff m') f) by (unfold in_range; rewrite Hlo; exact Hf).
      pose proof (Hbd _ _ Ho) as H1. pose proof (ofun_pos _ _ _ Hwf Hr Ho). unfold zlen in H1. lia. }
  destruct Hd as [l Hw|l j l2 Hw He|l j Hw Hf|x l1 l2 H1 H2 H3].
  - destruct (scan_accepts mt m bs Ht Hb Hl l Hw) as (m' & He & Hp). eapply HR; eassumption.
  - destruct (scan_early mt m bs Ht Hb Hl l j l2 Hw He) as (m' & Hd & Hp). eapply HR; eassumption.
  - cbn. rewrite (scan_fails mt m bs Ht Hb Hl l j Hw Hf). reflexivity.
  - cbn. unfold m_Decode. rewrite (scan_diverges mt m bs Ht Hb Hl x l1 l2 H1 H2 H3). reflexivity.
Qed.

Lemma decode_total m bs : of_type mt m -> Forall is_byte bs -> Z.of_nat (length bs) < 2 ^ 62 -> exists r, decodes n (reps mt) bs r.
Proof.
  intros Ht Hb Hl. destruct (scan_total mt m bs Ht Hb Hl) as [(l & m2 & Hw & _)|[(l & j & l2 & m2 & Hw & He & _)|[(l & j & Hw & Hf & _)|(x & l1 & l2 & H1 & H2 & H3 & _)]]];
    eexists; [eapply decodes_all|eapply decodes_part|eapply decodes_fails|eapply decodes_loops]; eassumption.
Qed.

Lemma step_sound M m s c : pinv M m s -> mutation_ok n c -> M + mutation_size c < 2 ^ 62 ->
  (exists r, mutates n (reps mt) s c r) /\ forall r, mutates n (reps mt) s c r -> agrees_with (M + mutation_size c) r (p_step mt m c).
Proof.
  intros Hinv Hok HM. assert (H0M : 0 <= M) by (destruct Hinv as (_ & _ & _ & _ & Hl & _); unfold plen in Hl; lia).
  destruct c as [f T v|f x|bs|bs]; cbn [mutates mutation_ok] in *.
  - destruct Hok as [Hf Hin]. split; [eapply set_total; eassumption|]. intros r. eapply set_sound; eassumption.
  - destruct Hok as [Hf Hx]. split; [eapply append_total; eassumption|]. intros r. eapply append_sound; eassumption.
  - split; [eapply decode_total; [apply Hinv|exact Hok|]|intros r; eapply decode_sound; try eassumption; apply Hinv].
    cbn in HM. change (2 ^ 62) with 4611686018427387904 in *. lia.
  - split.
    + destruct bs as [|b bs]; eexists; [apply resets_empty; reflexivity|apply resets_fails; discriminate].
    + intros r [->|Hne]; cbn [p_step m_Reset agrees_with].
      * eexists. split; [reflexivity|]. destruct (offsets_clear_ok (moff m)) as (Hwf & Hlo & Hc & _). destruct Hinv as (Ht & _).
        unfold pinv, plen. cbn [moff mbuf pbytes ppos pempty length]. split_and!; try assumption; [|reflexivity|constructor|cbn; lia|].
        -- unfold of_type in *. cbn [moff]. unfold zlen in Hlo. lia.
        -- intros f _. rewrite Hc. split; [reflexivity|discriminate].
      * unfold m_Reset. destruct bs as [|b bs]; [contradiction|]. replace (0 <? zlen (b :: bs)) with true by (unfold zlen; cbn [length]; lia). reflexivity.
Qed.

Lemma run_sound cs : forall M m s, pinv M m s -> Forall (mutation_ok n) cs -> M + mutations_size cs < 2 ^ 62 ->
  (exists r, mutates_all n (reps mt) s cs r) /\
  forall r, mutates_all n (reps mt) s cs r -> agrees_with (M + mutations_size cs) r (p_run mt m cs).
Proof.
  induction cs as [|c cs IH]; intros M m s Hinv Hok HM.
  - split; [eexists; constructor|]. intros r Hr. inversion Hr; subst. cbn. exists m. rewrite Z.add_0_r. auto.
  - apply Forall_cons in Hok as [Hc Hcs]. cbn [mutations_size foldr] in *. fold (mutations_size cs) in *.
    assert (Hnn : 0 <= mutations_size cs).
    { clear -cs. induction cs as [|c cs IH]; cbn; [lia|]. fold (mutations_size cs). pose proof (mutation_size_nonneg c). lia. }
    change (2 ^ 62) with 4611686018427387904 in *.
    destruct (step_sound M m s c Hinv Hc ltac:(change (2 ^ 62) with 4611686018427387904; lia)) as [(r0 & Hr0) Hs]. split.
    + destruct r0 as [s1| | |]; [|eexists; eapply mutates_stops; [exact Hr0|discriminate]..].
      destruct (Hs _ Hr0) as (m1 & _ & Hi1). destruct (IH _ m1 s1 Hi1 Hcs ltac:(lia)) as [(r & Hr) _]. exists r. econstructor; eassumption.
    + intros r Hr. inversion Hr as [|s' c' s1 cs' r' H1 H2|s' c' r' cs' H1 H2]; subst; cbn [p_run].
      * destruct (Hs _ H1) as (m1 & He & Hi1). rewrite He. cbn [rbind]. destruct (IH _ m1 s1 Hi1 Hcs ltac:(lia)) as [_ Hsound].
        rewrite Z.add_assoc. apply Hsound, H2.
      * pose proof (Hs _ H1) as Ha. destruct r as [s1| | |]; cbn [agrees_with] in *; [exfalso; eapply H2; reflexivity|..]; rewrite Ha; reflexivity.
Qed.

(** ** Queries *)
Lemma get_sound M m s f T : pinv M m s -> M < 2 ^ 62 -> 0 <= f < n ->
  (exists g, gets T s f g) /\ forall g, gets T s f g -> m_get T m f = outcome g.
Proof.
  intros Hinv HM Hf. pose proof (pinv_range _ _ _ _ Hinv Hf) as Hr. pose proof Hinv as (Ht & Hwf & Hbuf & Hb & Hl & Hpos).
  destruct (Hpos f Hf) as [Hof Hpf]. change (2 ^ 62) with 4611686018427387904 in HM.
  assert (Hl63 : zlen (mbuf m) < 2 ^ 63) by (rewrite Hbuf; unfold plen, zlen in *; pows; lia).
  assert (Hob : forall p, ppos s f = Some p -> p <= plen s -> exists g, obtains T (pbytes s) p g /\ m_get T m f = outcome g).
  { intros p Hp Hpl. rewrite <- Hbuf. apply get_obtains; try assumption; [rewrite Hbuf; exact Hb|congruence|].
    rewrite Hbuf. pose proof (Hpf p Hp). unfold plen, zlen in *. lia. }
  assert (Hw : ptype_wire_type T = 0 \/ ptype_wire_type T = 1 \/ ptype_wire_type T = 5 \/ ptype_wire_type T = 2) by (destruct T; cbn; auto).
  split.
  - destruct (ppos s f) as [p|] eqn:Hp; [|eexists; apply gets_default, Hp].
    destruct (Z.le_gt_cases p (plen s)) as [Hpl|Hpl].
    + destruct (Hob p eq_refl Hpl) as (g & Hg & _). exists g. eapply gets_found; eassumption.
    + destruct Hw as [Hw|[Hw|[Hw|Hw]]]; eexists; [eapply gets_outside|eapply gets_beyond|eapply gets_beyond|eapply gets_outside]; eauto.
  - intros g [Hp|p g' Hp Hpl Ho|p Hp Hpl HT|p Hp Hpl HT].
    + apply m_get_none; [exact Hwf|exact Hr|congruence].
    + destruct (Hob p Hp Hpl) as (g2 & Hg2 & He). rewrite He. f_equal. eapply obtains_det; eassumption.
    + assert (Hsl : slice_from (mbuf m) p = Panic).
      { rewrite Hbuf. unfold slice_from, plen, zlen in *. replace ((0 <=? p) && (p <=? _)) with false by lia. reflexivity. }
      rewrite Hp in Hof. destruct T; cbn in HT; try lia; cbn [m_get outcome];
        unfold GetBool, GetInt32, GetInt64, GetUint32, GetUint64, GetZigZagInt32, GetZigZagInt64, GetString, GetBytes;
        rewrite (with_offset_some _ _ _ _ _ Hwf Hr Hof), Hsl; reflexivity.
    + pose proof (Hpf p Hp) as Hp1. assert (Hsr : forall k, k = 4 \/ k = 8 -> slice_range (mbuf m) p (u64 (p + k)) = PastLen).
      { intros k Hk. rewrite u64_small by (pows; lia). rewrite Hbuf. unfold slice_range, plen, zlen in *.
        replace ((0 <=? p) && (p <=? p + k)) with true by lia. replace (p + k <=? _) with false by lia. reflexivity. }
      rewrite Hp in Hof. destruct T; cbn in HT; try lia; cbn [m_get outcome];
        unfold GetFixedUint32, GetFixedInt32, GetFloat32, GetFixedUint64, GetFixedInt64, GetFloat64;
        rewrite (with_offset_some _ _ _ _ _ Hwf Hr Hof), Hsr by auto; reflexivity.
Qed.

Lemma loop_sound M m s f : pinv M m s -> M < 2 ^ 62 -> 1 <= f < n ->
  (exists xs e, loops_over s f xs e /\ Z.of_nat (length xs) <= plen s + 1) /\
  forall xs e, loops_over s f xs e -> forall mt' x k, (length xs < k)%nat ->
    m_iterate k mt' m f x = let* l := decode_each mt' x xs in end_result e l.
Proof.
  intros Hinv HM Hf. pose proof (pinv_range _ _ _ f Hinv ltac:(lia)) as Hr. pose proof Hinv as (Ht & Hwf & Hbuf & Hb & Hl & Hpos).
  destruct (Hpos f ltac:(lia)) as [Hof Hpf]. change (2 ^ 62) with 4611686018427387904 in HM. unfold plen in *. split.
  - destruct (ppos s f) as [p|] eqn:Hp; [|exists [], EDone; split; [apply loops_none, Hp|cbn; lia]].
    destruct (Z.le_gt_cases p (Z.of_nat (length (pbytes s)))) as [Hpl|Hpl]; [|exists [], EFault; split; [eapply loops_outside; eassumption|cbn; lia]].
    assert (Hla : (length (at_pos (pbytes s) p) <= length (pbytes s))%nat) by (rewrite skipn_length; lia).
    destruct (delivers_total f ltac:(lia) (S (length (at_pos (pbytes s) p))) (at_pos (pbytes s) p) ltac:(lia) (at_bytes _ _ Hb) ltac:(pows; change (2 ^ 62) with 4611686018427387904; lia)) as (xs & e & Hd & Hlen).
    exists xs, e. split; [eapply loops_found; eassumption|lia].
  - intros xs e H mt' x k Hk. unfold m_iterate, m_Iter, GetRepeatedNonPacked. destruct H as [Hp|p xs e Hp Hpl Hd|p Hp Hpl]; rewrite Hp in Hof.
    + rewrite (with_offset_none _ _ _ _ Hwf Hr Hof). cbn. destruct k; [cbn in Hk; lia|reflexivity].
    + pose proof (Hpf p Hp). rewrite (with_offset_some _ _ _ _ _ Hwf Hr Hof), Hbuf. unfold slice_from, zlen. unfold plen in Hpl.
      replace ((0 <=? p) && (p <=? _)) with true by lia. cbn [rbind]. apply delivers_iterate; try assumption; [apply at_bytes, Hb|].
      change (2 ^ 62) with 4611686018427387904. rewrite skipn_length. lia.
    + pose proof (Hpf p Hp). rewrite (with_offset_some _ _ _ _ _ Hwf Hr Hof), Hbuf. unfold slice_from, zlen. unfold plen in Hpl.
      replace ((0 <=? p) && (p <=? _)) with false by lia. reflexivity.
Qed.
End Pos.
