(** * The representation invariant and its preservation by every method *)
From Verif Require Import Runtime Spec VarintFacts OffsetsFacts RecFacts DecodeFacts DecodeClass SetFacts GetFacts IterFacts Fuel Api.
From Coq Require Import ZifyBool.

Lemma is_repeated_In l f : is_repeated l f = true <-> In f l.
Proof.
  unfold is_repeated. rewrite existsb_exists. split.
  - intros (x & Hx & He). replace f with x by lia. exact Hx.
  - intros H. exists f. split; [exact H|lia].
Qed.

(** ** Setters: from typed values to payload bytes *)
Lemma canonical_payload_enc w pb : canonical_payload w pb -> payload_enc w pb.
Proof.
  destruct w; cbn; try exact (fun H => H).
  - intros [H _]. exact H.
  - intros (lb & -> & [H _] & Hb). exists lb. auto.
Qed.

Lemma zigzag_put cap x :
  - 2 ^ 63 <= x < 2 ^ 63 -> put_varint cap x = put_uvarint cap (zigzag x).
Proof.
  intros Hx. unfold put_varint, zigzag. f_equal. revert Hx. pows. intros Hx.
  rewrite Z.shiftl_mul_pow2 by lia. change (2 ^ 1) with 2. unfold u64.
  destruct (Z.ltb_spec x 0) as [Hn|Hp].
  - replace (x mod 18446744073709551616) with (x + 18446744073709551616)
      by (apply Z.mod_unique with (-1); lia).
    replace (((x + 18446744073709551616) * 2) mod 18446744073709551616) with (2 * x + 18446744073709551616)
      by (apply Z.mod_unique with 1; lia).
    unfold Z.lnot. symmetry. apply Z.mod_unique with (-1); lia.
  - rewrite (Z.mod_small x) by lia. rewrite Z.mod_small by lia. lia.
Qed.

Lemma put_min cap x :
  0 <= x < 2 ^ 64 -> x < 2 ^ (7 * Z.of_nat cap) -> (0 < cap <= 10)%nat ->
  exists bs, put_uvarint cap x = Ok bs /\ is_minimal_varint x bs.
Proof. apply put_uvarint_minimal. Qed.

Lemma zlen_minimal_pos v bs : is_minimal_varint v bs -> 1 <= zlen bs <= 10.
Proof. intros [H _]. eapply is_varint_len, H. Qed.

Ltac sz := unfold zlen; cbn [length app put_le32 put_le64 pval_size]; lia.

Lemma m_set_unfold T buf o f v :
  in_type T v -> pval_size v < 2 ^ 63 ->
  exists valLen val,
    m_set T (mkMsg buf o) f v =
      (let* (b, o) := setSingle buf o f (wire_type (wire_of T v)) valLen val in Ok (mkMsg b o)) /\
    canonical_payload (wire_of T v) (valLen ++ val) /\ zlen (valLen ++ val) <= 10 + pval_size v.
Proof.
  intros Hin Hsz. unfold m_set, m_set_ord. cbn [mbuf moff].
  assert (Hv : forall cap x, 0 <= x < 2 ^ 64 -> x < 2 ^ (7 * Z.of_nat cap) -> (0 < cap <= 10)%nat ->
     exists bs, put_uvarint cap x = Ok bs /\ is_minimal_varint x bs /\ zlen bs <= 10).
  { intros cap x H1 H2 H3. destruct (put_min cap x H1 H2 H3) as (bs & Hp & Hm). exists bs.
    split_and!; auto. apply zlen_minimal_pos in Hm. lia. }
  assert (H70 : 2 ^ (7 * Z.of_nat MaxVarintLen64) = 1180591620717411303424) by reflexivity.
  assert (H35 : 2 ^ (7 * Z.of_nat MaxVarintLen32) = 34359738368) by reflexivity.
  destruct T, v as [b|x|bs|bs]; cbn [in_type wire_of] in *; try contradiction; revert Hin Hsz; pows; intros Hin Hsz.
  - exists [], [if b then 1 else 0]. split; [reflexivity|]. split; [|sz]. cbn [app canonical_payload].
    destruct (Hv 1%nat (if b then 1 else 0)) as (bs & Hp & Hm & _); [destruct b; pows; lia|destruct b; reflexivity|lia|].
    destruct b; cbn in Hp; injection Hp as <-; exact Hm.
  - destruct (Hv MaxVarintLen64 (u64 x)) as (bs & Hp & Hm & Hl);
      [unfold u64; pows; Z.div_mod_to_equations; lia|rewrite H70; unfold u64; Z.div_mod_to_equations; lia|unfold MaxVarintLen64; lia|].
    exists [], bs. unfold SetInt32_ord. rewrite Hp. split; [reflexivity|]. split; [exact Hm|exact Hl].
  - destruct (Hv MaxVarintLen64 (u64 x)) as (bs & Hp & Hm & Hl);
      [unfold u64; pows; Z.div_mod_to_equations; lia|rewrite H70; unfold u64; Z.div_mod_to_equations; lia|unfold MaxVarintLen64; lia|].
    exists [], bs. unfold SetInt64_ord. rewrite Hp. split; [reflexivity|]. split; [exact Hm|exact Hl].
  - destruct (Hv MaxVarintLen32 x) as (bs & Hp & Hm & Hl); [pows; lia|rewrite H35; lia|unfold MaxVarintLen32; lia|].
    exists [], bs. unfold SetUint32_ord. rewrite (u64_small x) by (pows; lia). rewrite Hp.
    split; [reflexivity|]. split; [exact Hm|exact Hl].
  - destruct (Hv MaxVarintLen64 x) as (bs & Hp & Hm & Hl); [pows; lia|rewrite H70; lia|unfold MaxVarintLen64; lia|].
    exists [], bs. unfold SetUint64_ord. rewrite Hp. split; [reflexivity|]. split; [exact Hm|exact Hl].
  - destruct (Hv MaxVarintLen32 (zigzag x)) as (bs & Hp & Hm & Hl);
      [unfold zigzag; pows; destruct (x <? 0) eqn:E; lia|rewrite H35; unfold zigzag; destruct (x <? 0) eqn:E; lia|unfold MaxVarintLen32; lia|].
    exists [], bs. unfold SetZigZagInt32_ord. rewrite zigzag_put by (pows; lia). rewrite Hp.
    split; [reflexivity|]. split; [exact Hm|exact Hl].
  - destruct (Hv MaxVarintLen64 (zigzag x)) as (bs & Hp & Hm & Hl);
      [unfold zigzag; pows; destruct (x <? 0) eqn:E; lia|rewrite H70; unfold zigzag; destruct (x <? 0) eqn:E; lia|unfold MaxVarintLen64; lia|].
    exists [], bs. unfold SetZigZagInt64_ord. rewrite zigzag_put by (pows; lia). rewrite Hp.
    split; [reflexivity|]. split; [exact Hm|exact Hl].
  - exists [], (put_le32 x). split; [reflexivity|]. split; [apply put_le32_fixed; pows; lia|sz].
  - exists [], (put_le64 x). split; [reflexivity|]. split; [apply put_le64_fixed; pows; lia|sz].
  - exists [], (put_le32 (u32 x)). split; [reflexivity|]. split; [apply put_le32_fixed|sz].
    unfold u32. pows. apply Z.mod_pos_bound. lia.
  - exists [], (put_le64 (u64 x)). split; [reflexivity|]. split; [apply put_le64_fixed|sz].
    unfold u64. pows. apply Z.mod_pos_bound. lia.
  - exists [], (put_le32 x). split; [reflexivity|]. split; [apply put_le32_fixed; pows; lia|sz].
  - exists [], (put_le64 x). split; [reflexivity|]. split; [apply put_le64_fixed; pows; lia|sz].
  - cbn [pval_size] in *. destruct (Hv MaxVarintLen64 (zlen bs)) as (lb & Hp & Hm & Hl);
      [unfold zlen; pows; lia|rewrite H70; unfold zlen; lia|unfold MaxVarintLen64; lia|].
    exists lb, bs. unfold SetString_ord. rewrite (u64_small (zlen bs)) by (unfold zlen; pows; lia). rewrite Hp.
    split; [reflexivity|]. split; [exists lb; auto|]. rewrite zlen_app. unfold zlen in *. lia.
  - set (d := match bs with Some b => b | None => [] end).
    assert (Hd : Forall is_byte d) by (destruct bs; [exact Hin|constructor]).
    assert (Hds : pval_size (VBytes bs) = zlen d) by (destruct bs; reflexivity).
    rewrite Hds in *. pose proof (zlen_nonneg d).
    destruct (Hv MaxVarintLen64 (zlen d)) as (lb & Hp & Hm & Hl);
      [pows; lia|rewrite H70; lia|unfold MaxVarintLen64; lia|].
    exists lb, d. unfold SetBytes_ord. replace (default [] bs) with d by (destruct bs; reflexivity).
    rewrite (u64_small (zlen d)) by (pows; lia). rewrite Hp.
    split; [reflexivity|]. split; [exists lb; auto|]. rewrite zlen_app. lia.
Qed.

Lemma value_of_wire_of T v : in_type T v -> value_of T (wire_of T v) = stored v.
Proof.
  destruct T, v as [b|x|bs|bs]; cbn [in_type wire_of value_of stored]; try contradiction; intros Hin; try reflexivity;
    try (destruct bs; reflexivity); f_equal; revert Hin; unfold to_signed, to_unsigned; pows;
    change (2 ^ (32 - 1)) with 2147483648; change (2 ^ (64 - 1)) with 9223372036854775808; intros Hin.
  - destruct b; reflexivity.
  - assert (Hm : (x mod 18446744073709551616) mod 4294967296 = x mod 4294967296).
    { change 18446744073709551616 with (4294967296 * 4294967296).
      rewrite Z.rem_mul_r, Z.mul_comm, Z.mod_add, Z.mod_mod by lia. reflexivity. }
    rewrite Hm. destruct (Z.ltb_spec (x mod 4294967296) 2147483648); Z.div_mod_to_equations; lia.
  - rewrite Z.mod_mod by lia.
    destruct (Z.ltb_spec (x mod 18446744073709551616) 9223372036854775808); Z.div_mod_to_equations; lia.
  - apply Z.mod_small. lia.
  - rewrite Z.mod_small by (unfold zigzag; destruct (x <? 0) eqn:E; lia). unfold zigzag, unzigzag.
    destruct (Z.ltb_spec x 0).
    + replace (Z.even (-2 * x - 1)) with false; [Z.div_mod_to_equations; lia|].
      replace (-2 * x - 1) with (2 * (- x - 1) + 1) by lia. rewrite Z.even_add_mul_2 || rewrite Z.add_comm, Z.even_add_mul_2. reflexivity.
    + rewrite Z.even_mul. cbn [Z.even orb]. Z.div_mod_to_equations; lia.
  - unfold zigzag, unzigzag.
    destruct (Z.ltb_spec x 0).
    + replace (Z.even (-2 * x - 1)) with false; [Z.div_mod_to_equations; lia|].
      replace (-2 * x - 1) with (1 + 2 * (- x - 1)) by lia. rewrite Z.even_add_mul_2. reflexivity.
    + rewrite Z.even_mul. cbn [Z.even orb]. Z.div_mod_to_equations; lia.
  - rewrite Z.mod_mod by lia.
    destruct (Z.ltb_spec (x mod 4294967296) 2147483648); Z.div_mod_to_equations; lia.
  - rewrite Z.mod_mod by lia.
    destruct (Z.ltb_spec (x mod 18446744073709551616) 9223372036854775808); Z.div_mod_to_equations; lia.
Qed.

Lemma conforms_wire_of T v : in_type T v -> conforms T (wire_of T v).
Proof.
  unfold conforms. destruct T, v as [b|x|bs|bs]; cbn [in_type wire_of wire_type ptype_wire_type]; try contradiction;
    intros Hin; (split; [reflexivity|]); try exact I.
  revert Hin. pows. unfold zigzag. destruct (x <? 0) eqn:E; lia.
Qed.
