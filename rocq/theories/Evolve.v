(** * Schema evolution: one schema writes, another reads (C62) *)
From Verif Require Import Api.
From Verif Require Import VarintFacts OffsetsFacts RecFacts DecodeFacts SetFacts GetFacts IterFacts ApiFacts ApiInv.
From Verif Require Import Core Core2 Core3 Core4 Core5 Core6 Canon.
From Coq Require Import ZifyBool.

(** ** Specification: protobuf, "Updating A Message Type"

    int32, uint32, int64, uint64 and bool are compatible: the number is converted
    as in C++; sint32 and sint64 are compatible with each other; fixed32 with
    sfixed32, fixed64 with sfixed64; string with bytes. *)
Definition as_int (v : pval) : Z := match v with VBool b => if b then 1 else 0 | VNum z => z | _ => 0 end.
Definition as_bytes (v : pval) : list Z := match v with VString b => b | VBytes (Some b) => b | _ => [] end.

Inductive family := FInt | FZigzag | FFixed32 | FFixed64 | FFloat | FDouble | FBytes.
Definition family_of (T : ptype) : family :=
  match T with
  | PBool | PInt32 | PInt64 | PUint32 | PUint64 => FInt
  | PSint32 | PSint64 => FZigzag
  | PFixed32 | PSfixed32 => FFixed32
  | PFixed64 | PSfixed64 => FFixed64
  | PFloat => FFloat
  | PDouble => FDouble
  | PString | PBytes => FBytes
  end.
Definition compatible (T1 T2 : ptype) : Prop := family_of T1 = family_of T2.

(** The conversion to a type of the same family. *)
Definition convert (T2 : ptype) (v : pval) : pval :=
  match T2 with
  | PBool => VBool (negb (as_int v =? 0))
  | PInt32 | PSint32 | PSfixed32 => VNum (to_signed 32 (as_int v))
  | PInt64 | PSint64 | PSfixed64 => VNum (to_signed 64 (as_int v))
  | PUint32 | PFixed32 | PFloat => VNum (to_unsigned 32 (as_int v))
  | PUint64 | PFixed64 | PDouble => VNum (to_unsigned 64 (as_int v))
  | PString => VString (as_bytes v)
  | PBytes => VBytes (Some (as_bytes v))
  end.

(** ** Proofs *)
Lemma compatible_wire T1 T2 v : compatible T1 T2 -> in_type T1 v -> wire_type (wire_of T1 v) = ptype_wire_type T2.
Proof.
  intros Hc Hin. destruct (conforms_wire_of T1 v Hin) as [-> _]. revert Hc. unfold compatible.
  destruct T1, T2; cbn; congruence.
Qed.

Lemma mod_64_32 x : (x mod 18446744073709551616) mod 4294967296 = x mod 4294967296.
Proof.
  change 18446744073709551616 with (4294967296 * 4294967296).
  rewrite Z.rem_mul_r, Z.mul_comm, Z.mod_add, Z.mod_mod by lia. reflexivity.
Qed.
Lemma unzigzag_zigzag x : unzigzag (zigzag x) = x.
Proof.
  unfold zigzag, unzigzag. destruct (Z.ltb_spec x 0).
  - replace (Z.even (-2 * x - 1)) with false; [Z.div_mod_to_equations; lia|].
    replace (-2 * x - 1) with (1 + 2 * (- x - 1)) by lia. rewrite Z.even_add_mul_2. reflexivity.
  - rewrite Z.even_mul. cbn [Z.even orb]. Z.div_mod_to_equations; lia.
Qed.

Lemma convert_value T1 T2 v : compatible T1 T2 -> in_type T1 v -> T2 <> PSint32 ->
  value_of T2 (wire_of T1 v) = convert T2 v.
Proof.
  unfold compatible. intros Hc Hin Hn.
  destruct T1, T2; cbn in Hc; try discriminate; try congruence; destruct v as [b|z|bs|[bs|]]; cbn in Hin; try contradiction;
    cbn [wire_of value_of convert as_int as_bytes]; rewrite ?unzigzag_zigzag; try reflexivity; try (destruct b; reflexivity);
    f_equal; revert Hin; unfold to_signed, to_unsigned; pows;
    change (2 ^ (32 - 1)) with 2147483648; change (2 ^ (64 - 1)) with 9223372036854775808; intros Hin;
    rewrite ?mod_64_32, ?Z.mod_mod by lia; try reflexivity.
  all: try (apply Z.mod_small; lia).
  all: try (destruct (Z.ltb_spec (z mod 18446744073709551616) 9223372036854775808); Z.div_mod_to_equations; lia).
  all: try (destruct (Z.ltb_spec (z mod 4294967296) 2147483648); Z.div_mod_to_equations; lia).
  all: try (Z.div_mod_to_equations; lia).
Qed.

Lemma get_sint32 m f :
  m_get PSint32 m f = let* v := m_get PSint64 m f in Ok (VNum (to_signed 32 (as_int v))).
Proof.
  cbn [m_get]. unfold GetZigZagInt32, GetZigZagInt64, with_offset.
  destruct (offsets_get (moff m) f) as [[off ok]| | |]; cbn [rbind]; try reflexivity.
  destruct ok; [|reflexivity].
  destruct (slice_from (mbuf m) off) as [b| | |]; cbn [rbind]; try reflexivity.
  destruct (varint b) as [x n]. cbn [rbind]. rewrite i32_signed. reflexivity.
Qed.

(** What the writer's record of a field is. *)
Definition single_ok (T : ptype) (ws : list wval) : Prop := ws = [] \/ exists v, in_type T v /\ ws = [wire_of T v].

Lemma built_single n sc os f T : forall s,
  sc f = Some (KSingle T) -> Forall (op_ok n sc) os -> Forall built os -> single_ok T (s f) ->
  single_ok T (fold_left (spec_step sc) os s f).
Proof.
  induction os as [|o os IH]; intros s Hf Hok Hb Hs; [exact Hs|].
  apply Forall_cons in Hok as [Ho Hok]. apply Forall_cons in Hb as [Hb1 Hb]. cbn [fold_left]. apply IH; try assumption.
  destruct o as [g v|g x| |rs bs]; cbn [op_ok built spec_step] in *; [| |left; reflexivity|contradiction].
  - destruct (Z.eqb_spec f g) as [Hg|Hg]; [|exact Hs]. rewrite <- Hg in *. rewrite Hf. destruct Ho as (T' & HT & Hin).
    rewrite Hf in HT. injection HT as <-. right. eauto.
  - destruct (Z.eqb_spec f g) as [Hg|Hg]; [|exact Hs]. rewrite <- Hg in Ho. destruct Ho as [Ho _]. congruence.
Qed.

Lemma built_repeated n sc os f : forall s,
  sc f = Some KRepeated -> Forall (op_ok n sc) os -> Forall built os -> Forall (fun w => wire_type w = 2) (s f) ->
  Forall (fun w => wire_type w = 2) (fold_left (spec_step sc) os s f).
Proof.
  induction os as [|o os IH]; intros s Hf Hok Hb Hs; [exact Hs|].
  apply Forall_cons in Hok as [Ho Hok]. apply Forall_cons in Hb as [Hb1 Hb]. cbn [fold_left]. apply IH; try assumption.
  destruct o as [g v|g x| |rs bs]; cbn [op_ok built spec_step] in *; [| |constructor|contradiction].
  - destruct (Z.eqb_spec f g) as [Hg|Hg]; [|exact Hs]. rewrite <- Hg in *. rewrite Hf. exact Hs.
  - destruct (Z.eqb_spec f g) as [Hg|Hg]; [|exact Hs]. apply Forall_app. split; [exact Hs|]. repeat constructor.
Qed.

Lemma convert_stored T2 v : convert T2 (stored v) = convert T2 v.
Proof. destruct v as [| | |[|]]; destruct T2; reflexivity. Qed.

Lemma evolve_single T1 T2 m m' f ws :
  compatible T1 T2 -> single_ok T1 ws ->
  m_get T1 m f = Ok (read_single T1 ws) ->
  (forall T, (forall w, last ws = Some w -> conforms T w) -> m_get T m' f = Ok (read_single T ws)) ->
  m_get T2 m' f = Ok (if decide (ws = []) then default_of T2 else convert T2 (read_single T1 ws)).
Proof.
  intros Hc Hs Hm Hm'. destruct Hs as [->|(v & Hin & ->)].
  { rewrite decide_True by reflexivity. apply Hm'. intros w [=]. }
  rewrite decide_False by discriminate. unfold read_single in *. cbn [last] in *. rewrite value_of_wire_of, convert_stored by exact Hin.
  assert (Hgen : forall T, compatible T1 T -> T <> PSint32 -> m_get T m' f = Ok (convert T v)).
  { intros T HT Hn. rewrite Hm'.
    - rewrite (convert_value T1) by assumption. reflexivity.
    - intros w [= <-]. split; [apply compatible_wire; assumption|]. destruct T; try done. }
  assert (T2 = PSint32 \/ T2 <> PSint32) as [->|Hn] by (destruct T2; auto; right; discriminate); [|apply Hgen; assumption].
  rewrite get_sint32, (Hgen PSint64); [|destruct T1; try discriminate Hc; reflexivity|discriminate].
  cbn [rbind convert as_int]. f_equal. f_equal. unfold to_signed. pows.
  change (2 ^ (32 - 1)) with 2147483648; change (2 ^ (64 - 1)) with 9223372036854775808.
  assert (E : forall x, (if x mod 18446744073709551616 <? 9223372036854775808 then x mod 18446744073709551616
     else x mod 18446744073709551616 - 18446744073709551616) mod 4294967296 = x mod 4294967296).
  { intros x. destruct (x mod 18446744073709551616 <? 9223372036854775808); [apply mod_64_32|].
    replace (x mod 18446744073709551616 - 18446744073709551616) with (x mod 18446744073709551616 + (- 4294967296) * 4294967296) by lia.
    rewrite Z.mod_add by lia. apply mod_64_32. }
  rewrite E. reflexivity.
Qed.

Lemma evolve mt1 sc1 os m mt2 sc2 m0 :
  schema_ok mt1 sc1 -> history mt1 sc1 os m -> Forall built os -> ops_size os < 2 ^ 63 ->
  schema_ok mt2 sc2 -> of_type mt2 m0 -> (forall f, Z.of_nat (alen mt2) <= f -> spec_run sc1 os f = []) ->
  exists m', m_Decode mt2 m0 (m_Encode m) = Ok (None, m') /\ m_Encode m' = m_Encode m /\
    (forall f T1 T2 v, sc1 f = Some (KSingle T1) -> sc2 f = Some (KSingle T2) -> compatible T1 T2 -> m_get T1 m f = Ok v ->
       m_get T2 m' f = Ok (if decide (spec_run sc1 os f = []) then default_of T2 else convert T2 v)) /\
    (forall f T2, sc1 f = None -> sc2 f = Some (KSingle T2) -> m_get T2 m' f = Ok (default_of T2)) /\
    (forall f mt' x, sc1 f = None -> sc2 f = Some KRepeated -> forall n, (0 < n)%nat -> m_iterate n mt' m' f x = Ok []) /\
    (forall f, sc1 f = Some KRepeated -> sc2 f = Some KRepeated -> forall mt' x n, (length (spec_run sc1 os f) < n)%nat ->
       m_iterate n mt' m' f x = m_iterate n mt' m f x) /\
    (forall f, sc1 f = Some KRepeated -> sc2 f = Some (KSingle PBytes) ->
       m_get PBytes m' f = Ok (VBytes (last (read_repeated (spec_run sc1 os f))))) /\
    (forall f T1 v, sc1 f = Some (KSingle T1) -> family_of T1 = FBytes -> sc2 f = Some KRepeated -> m_get T1 m f = Ok v ->
       forall mt' x n, (1 < n)%nat ->
       m_iterate n mt' m' f x = decode_each mt' x (if decide (spec_run sc1 os f = []) then [] else [as_bytes v])).
Proof.
  intros Hsc Hh Hb Hsz Hsc2 H0 Hr.
  destruct (built_records mt1 sc1 os m Hsc Hh Hb Hsz) as (cs & Eb & Hca & Hlt & Hocc).
  assert (Hv : Forall cvalid cs).
  { apply cmin_valid. eapply Forall_impl; [exact Hca|]. intros c [Hc _]. done. }
  destruct Hh as [Hok Hrun].
  destruct (history_refines mt1 sc1 os Hsc Hok Hsz) as (m1 & Hrun1 & Hg1 & Hi1).
  rewrite Hrun in Hrun1. injection Hrun1 as <-.
  destruct (decode_accepts mt2 m0 (map crecord cs) (flat cs)) as (m' & He & Hen & Hg & Hi); try assumption.
  { apply wire_concrete. eauto. }
  { rewrite Forall_map. apply Forall_forall. intros c Hc. cbn [crecord fst].
    destruct (Z.ltb_spec (cf c) (Z.of_nat (alen mt2))) as [|Hge]; [assumption|exfalso].
    assert (Hno : occ (cf c) (map crecord cs) = []).
    { rewrite Hocc. destruct (sc1 (cf c)); [|reflexivity]. apply Hr, Hge. }
    clear -Hc Hno. induction cs as [|d cs IH]; [inversion Hc|]. cbn [map occ crecord] in Hno.
    apply elem_of_cons in Hc as [->|Hc]; [rewrite Z.eqb_refl in Hno; discriminate|].
    destruct (cf d =? cf c); [discriminate|]. apply IH; assumption. }
  unfold m_Encode in *. rewrite Eb. exists m'.
  destruct Hsc2 as (_ & Hrange & Hrep & Hnrep).
  assert (Hsing : forall f T1, sc1 f = Some (KSingle T1) -> single_ok T1 (spec_run sc1 os f)).
  { intros f T1 Hf. eapply built_single; eauto. left. reflexivity. }
  assert (Hreps : forall f, sc1 f = Some KRepeated -> Forall (fun w => wire_type w = 2) (spec_run sc1 os f)).
  { intros f Hf. eapply built_repeated; eauto. }
  split_and!; auto.
  - intros f T1 T2 v H1 H2 Hc Hgv. rewrite (Hg1 f T1 H1) in Hgv. injection Hgv as <-.
    specialize (Hocc f). rewrite H1 in Hocc.
    apply evolve_single with (m := m); eauto.
    intros T HT. rewrite <- Hocc in *. apply Hg; eauto.
  - intros f T2 H1 H2. specialize (Hocc f). rewrite H1 in Hocc. rewrite Hg; eauto; rewrite Hocc; try reflexivity; intros w [=].
  - intros f mt' x H1 H2 n Hn. specialize (Hocc f). rewrite H1 in Hocc. rewrite Hi; eauto; rewrite Hocc; first [reflexivity|constructor|cbn; lia].
  - intros f H1 H2 mt' x n Hn. specialize (Hocc f). rewrite H1 in Hocc. rewrite Hi, Hi1, Hocc; eauto; rewrite Hocc; eauto.
  - intros f H1 H2. specialize (Hocc f). rewrite H1 in Hocc. rewrite <- Hocc.
    assert (Hw2 : Forall (fun w => wire_type w = 2) (occ f (map crecord cs))) by (rewrite Hocc; eauto).
    rewrite Hg; eauto.
    + unfold read_single, read_repeated. change (map bytes_of) with (fmap bytes_of : list wval -> list (list Z)). rewrite fmap_last. destruct (last (occ f (map crecord cs))) as [w|] eqn:El; [|reflexivity].
      apply last_Some_elem_of in El. rewrite Forall_forall in Hw2. apply Hw2 in El. destruct w; try discriminate. reflexivity.
    + intros w El. apply last_Some_elem_of in El. rewrite Forall_forall in Hw2. apply Hw2 in El. split; [exact El|done].
  - intros f T1 v H1 HT H2 Hgv mt' x n Hn. rewrite (Hg1 f T1 H1) in Hgv. injection Hgv as <-.
    specialize (Hocc f). rewrite H1 in Hocc. destruct (Hsing f T1 H1) as [E|(v & Hin & E)]; rewrite E in *.
    + rewrite decide_True by reflexivity. rewrite Hi; eauto; rewrite Hocc; first [reflexivity|constructor|cbn; lia].
    + rewrite decide_False by discriminate. unfold read_single. cbn [last]. rewrite value_of_wire_of by exact Hin.
      rewrite Hi; eauto; rewrite Hocc; [|constructor; [|constructor]|cbn; lia].
      * f_equal. cbn [read_repeated map]. f_equal. destruct T1; try discriminate HT; destruct v as [| | |[|]]; try contradiction Hin; reflexivity.
      * destruct T1; try discriminate HT; destruct v as [| | |[|]]; try contradiction Hin; reflexivity.
Qed.
