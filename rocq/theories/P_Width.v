(** * Property C69: 32-bit platforms *)
From Verif Require Import Runtime32 Spec VarintFacts OffsetsFacts RecFacts DecodeFacts DecodeClass SetFacts GetFacts IterFacts Fuel Api ApiFacts ApiInv Core Width SpecScan ScanFacts WidthScan P_Decode Demo.
From Coq Require Import ZifyBool.

(** Where Go's [int] has 32 bits ([run_w i32] and so on, Runtime32.v), every
    history of legal operations on a type with field numbers below 2^28, with less
    than 2^31 bytes of input, leaves the same struct as with 64 bits: the same
    encoded bytes, the same answers of all getters, sub-message accessors and
    iterators (where the stored bytes are messages at all).  [plain p]: [p] is a
    well-formed message with field numbers below 2^31. *)
Theorem C69_same_history mt sc os :
  schema_ok mt sc -> Z.of_nat (alen mt) <= 2 ^ 28 ->
  Forall (op_ok (Z.of_nat (alen mt)) sc) os -> ops_size os < 2 ^ 31 ->
  exists m, run_w i32 mt sc (msg_zero mt) os = Ok m /\ run mt sc (msg_zero mt) os = Ok m /\
    (forall f T, sc f = Some (KSingle T) -> m_get T m f = Ok (read_single T (spec_run sc os f))) /\
    (forall f mt' x, sc f = Some (KSingle PBytes) ->
       Forall plain (read_repeated (spec_run sc os f)) ->
       m_Message_w i32 mt' m f x = m_Message mt' m f x) /\
    (forall f mt' x n, sc f = Some KRepeated ->
       Forall plain (read_repeated (spec_run sc os f)) ->
       m_iterate_w i32 n mt' m f x = m_iterate n mt' m f x).
Proof.
  intros Hsc H28 Hok Hsz. pose proof p31_63 as P.
  destruct (rep_run mt sc os (msg_zero mt) [] (fun _ => [])) as (m & cs & He & Hm & Hs & Hl); try assumption.
  { apply rep_zero. }
  { intros f. unfold view. destruct (sc f) as [[|]|]; reflexivity. }
  { change (zlen (mbuf (msg_zero mt))) with 0. lia. }
  change (zlen (mbuf (msg_zero mt))) with 0 in Hl. fold (spec_run sc os) in Hs.
  exists m. split; [|split; [exact He|split; [|split]]].
  - rewrite (run32 mt sc os (msg_zero mt) []); try assumption; apply rep_zero.
  - intros f T Hf. rewrite (rep_get mt sc m cs) by (try assumption; lia). rewrite Hs, (read_single_view _ _ _ _ Hf). reflexivity.
  - intros f mt' x Hf Hpl. unfold m_Message_w, m_Message.
    assert (Hg : m_get PBytes m f = Ok (read_single PBytes (spec_run sc os f))).
    { rewrite (rep_get mt sc m cs) by (try assumption; lia). rewrite Hs, (read_single_view _ _ _ _ Hf). reflexivity. }
    unfold m_get in Hg. destruct (GetBytes (mbuf m) (moff m) f) as [[b|]| | |] eqn:Eb; cbn [rbind] in *; [|reflexivity|discriminate..].
    injection Hg as Hg. assert (Hb : plain b /\ zlen b < 2 ^ 31); [|rewrite m_Decode_plain by apply Hb; reflexivity].
    unfold read_single in Hg. destruct (last (spec_run sc os f)) as [w|] eqn:El; [|discriminate].
    assert (w = WBytes b) as -> by (destruct w; cbn in Hg; congruence).
    split.
    + apply last_Some in El as [l El]. rewrite El in Hpl. unfold read_repeated in Hpl. rewrite map_app in Hpl.
      apply Forall_app in Hpl as [_ Hpl]. apply Forall_cons in Hpl as [Hpl _]. exact Hpl.
    + rewrite Hs in El. unfold view in El. rewrite Hf, last_last_only in El.
      assert (Hin : exists c, c ∈ cs /\ cw c = WBytes b).
      { clear -El. apply last_Some in El as [l El]. revert l El. induction cs as [|c cs IH]; intros l El; cbn [map occ crecord] in El.
        - destruct l; discriminate.
        - destruct (cf c =? f).
          + destruct l as [|w l]; injection El as E1 E2.
            * exists c. split; [left|exact E1].
            * destruct (IH l E2) as (c' & H1 & H2). exists c'. split; [right; exact H1|exact H2].
          + destruct (IH l El) as (c' & H1 & H2). exists c'. split; [right; exact H1|exact H2]. }
      destruct Hin as (c & Hc & Hcw). pose proof (rep_buf _ _ _ _ Hm) as Hbuf. pose proof (rep_min _ _ _ _ Hm) as Hmin.
      apply elem_of_list_split in Hc as (l1 & l2 & ->). apply Forall_app in Hmin as [_ Hmin]. apply Forall_cons in Hmin as [[[_ Hp] _] _].
      rewrite Hcw in Hp. destruct Hp as (lb & Hcp & _). rewrite Hbuf, flat_app in Hl. cbn [flat] in Hl. unfold cbytes in Hl. rewrite Hcp in Hl.
      rewrite !zlen_app in Hl. pose proof (zlen_nonneg (flat l1)). pose proof (zlen_nonneg (ct c)). pose proof (zlen_nonneg lb).
      pose proof (zlen_nonneg (flat l2)). lia.
  - intros f mt' x n Hf Hpl. unfold m_iterate_w, m_iterate. destruct m as [buf o].
    pose proof Hsc as (_ & Hrange & Hrep & _). pose proof Hm as [Hbuf Hmin Hwf Hlen Hidx Hty]. cbn [mbuf moff] in *. subst buf.
    pose proof (cmin_valid _ Hmin) as Hv.
    rewrite (m_Iter_ok (reps mt) o cs f); try assumption.
    2:{ unfold in_range. rewrite Hlen. eapply Hrange, Hf. }
    2:{ apply is_repeated_In, Hrep, Hf. }
    cbn [rbind]. apply iterate32; try assumption.
    + eapply Forall_impl; [exact Hty|]. intros c [Hc _]. assert (2 ^ 28 < 2 ^ 31) by reflexivity. cbn in *. lia.
    + eapply typed_all_bytes; [|exact Hf]. eapply Forall_impl; [exact Hty|]. intros c [_ Hc]. exact Hc.
    + lia.
    + rewrite Hs in Hpl. unfold view in Hpl. rewrite Hf in Hpl. exact Hpl.
Qed.

(** Decode of any well-formed message, also into a struct with any contents: the
    same outcome and struct, panics included. *)
Theorem C69_same_decode mt m rs bs :
  wire rs bs -> Forall (fun r => r.1 < 2 ^ 31) rs -> Z.of_nat (length bs) < 2 ^ 31 ->
  m_Decode_w i32 mt m bs = m_Decode mt m bs.
Proof. intros Hw Hf Hl. apply m_Decode_plain; [exists rs; auto|exact Hl]. Qed.

(** Decode of any bytes whatsoever, as long as wherever the reader (SpecScan.v) gets,
    the field number is below 2^31 and the record it finds ends, or pretends to end,
    before position 2^31: the same outcome, be it success, an error, a panic or
    no end at all, and the same struct. *)
Theorem C69_any_input mt m bs :
  of_type mt m -> Forall is_byte bs -> Z.of_nat (length bs) < 2 ^ 31 ->
  (forall l i tag p, walk (Z.of_nat (alen mt)) bs 0 l i -> tag_at bs i tag p ->
     tag < 2 ^ 34 /\ forall s, moves (tag mod 8) (at_pos bs p) s -> p + s < 2 ^ 31) ->
  m_Decode_w i32 mt m bs = m_Decode mt m bs /\
  forall fuel, Decode_w i32 fuel bs (moff m) (reps mt) = Decode fuel bs (moff m) (reps mt).
Proof.
  intros Ht Hb Hl Hn. assert (H : forall fuel, Decode_w i32 fuel bs (moff m) (reps mt) = Decode fuel bs (moff m) (reps mt)).
  { intros fuel. apply Decode32; assumption. }
  split; [|exact H]. unfold m_Decode_w, m_Decode. rewrite H. reflexivity.
Qed.

(** A length prefix just below 2^31, in a message that is cut off there: the
    position overflows, Decode panics instead of reporting the end of input. *)
Theorem C69_wrap_refuted :
  exists m64, m_Decode_w i32 demo_mt (msg_zero demo_mt) [18; 255; 255; 255; 255; 7; 0] = Panic /\
    m_Decode demo_mt (msg_zero demo_mt) [18; 255; 255; 255; 255; 7; 0] = Ok (Some ErrUnexpectedEOF, m64).
Proof. eexists. split; vm_compute; reflexivity. Qed.

(** The bounds are needed.  Field numbers from 2^28 up to protobuf's limit 2^29:
    the shift in [fieldID<<3] overflows, the setter writes another tag than on a
    64-bit platform, and neither platform can decode the message. *)
Theorem C69_large_field_refuted mt f :
  2 ^ 28 <= f < Z.of_nat (alen mt) -> Z.of_nat (alen mt) <= 2 ^ 29 ->
  exists m m64, m_set_w i32 PBool (msg_zero mt) f (VBool true) = Ok m /\
    m_set PBool (msg_zero mt) f (VBool true) = Ok m64 /\ m_Encode m <> m_Encode m64 /\
    m_Decode_w i32 mt (msg_zero mt) (m_Encode m) = Panic /\ m_Decode mt (msg_zero mt) (m_Encode m) = Panic /\
    exists y, m_Decode mt (msg_zero mt) (m_Encode m64) = Ok (None, y).
Proof.
  intros Hf Hn. change (2 ^ 28) with 268435456 in Hf. change (2 ^ 29) with 536870912 in Hn.
  destruct (offsets_zero_ok (alen mt)) as (Hwf & Hl & Hof).
  assert (Hr : in_range (offsets_zero (alen mt)) f) by (unfold in_range; rewrite Hl; lia).
  pose proof (offsets_get_eq _ _ Hwf Hr) as Hg. rewrite Hof in Hg.
  assert (Esh : Z.shiftl f 3 = 8 * f) by (rewrite Z.shiftl_mul_pow2 by lia; change (2 ^ 3) with 8; lia).
  set (t := 18446744069414584320 + 8 * f).
  assert (Et : make_tag_w i32 f 0 = t).
  { assert (E32 : i32 (8 * f) = 8 * f - 4294967296).
    { unfold i32. replace (8 * f + 2147483648) with (8 * f - 2147483648 + 1 * 4294967296) by lia.
      rewrite Z.mod_add, Z.mod_small by lia. lia. }
    unfold make_tag_w. rewrite Esh, Z.lor_0_r, E32. unfold u64, t.
    replace (8 * f - 4294967296) with (18446744069414584320 + 8 * f + (-1) * 18446744073709551616) by lia.
    rewrite Z.mod_add, Z.mod_small; lia. }
  assert (Et64 : make_tag f 0 = 8 * f).
  { rewrite make_tag_ok; [lia| |lia]. change (2 ^ 59) with 576460752303423488. lia. }
  assert (H70 : 2 ^ (7 * Z.of_nat MaxVarintLen64) = 1180591620717411303424) by reflexivity.
  destruct (put_min MaxVarintLen64 t) as (tb & Htb & Hmin); [unfold t; pows; lia|rewrite H70; unfold t; lia|unfold MaxVarintLen64; lia|].
  destruct (put_min MaxVarintLen64 (8 * f)) as (tb64 & Htb64 & Hmin64); [pows; lia|rewrite H70; lia|unfold MaxVarintLen64; lia|].
  pose proof (zlen_minimal_pos _ _ Hmin) as Hz. pose proof (zlen_minimal_pos _ _ Hmin64) as Hz64.
  assert (Hset : forall b : list Z, 1 <= zlen b <= 10 -> exists o, offsets_set (offsets_zero (alen mt)) f (u64 (zlen b)) = Ok o).
  { intros b Hb. rewrite u64_small by (pows; lia). destruct (offsets_set_ok (offsets_zero (alen mt)) f (zlen b) Hwf Hr) as (o & Ho & _); [pows; lia|eauto]. }
  destruct (Hset tb Hz) as (o & Ho). destruct (Hset tb64 Hz64) as (o64 & Ho64).
  exists (mkMsg (tb ++ [1]) o), (mkMsg (tb64 ++ [1]) o64).
  assert (Hpanic : forall x, x < 0 \/ Z.of_nat (alen mt) <= x -> forall y, offsets_set (offsets_clear (offsets_zero (alen mt))) x y = Panic).
  { intros x Hx y. destruct (offsets_clear_ok (offsets_zero (alen mt))) as (_ & Hlc & _). rewrite Hl in Hlc.
    unfold offsets_set, arr_set, arr_get. rewrite Hlc. replace ((0 <=? x) && (x <? Z.of_nat (alen mt))) with false by lia.
    destruct (y <=? offsetMaxInArray); reflexivity. }
  assert (Hpanicg : forall x, x < 0 \/ Z.of_nat (alen mt) <= x -> offsets_get (offsets_clear (offsets_zero (alen mt))) x = Panic).
  { intros x Hx. destruct (offsets_clear_ok (offsets_zero (alen mt))) as (_ & Hlc & _). rewrite Hl in Hlc.
    unfold offsets_get, arr_get. rewrite Hlc. replace ((0 <=? x) && (x <? Z.of_nat (alen mt))) with false by lia. reflexivity. }
  assert (Hu : uvarint (tb ++ [1]) = (t, zlen tb)) by (apply uvarint_spec, Hmin).
  assert (Ht8 : Z.shiftr t 3 = 2305843008676823040 + f).
  { rewrite shiftr_3. unfold t. symmetry. apply Z.div_unique with 0; lia. }
  assert (Ht32 : i32 (Z.shiftr t 3) < 0).
  { rewrite Ht8. unfold i32. replace (2305843008676823040 + f + 2147483648) with (f - 536870912 + 2147483648 + 536870912 * 4294967296) by lia.
    rewrite Z.mod_add, Z.mod_small by lia. lia. }
  assert (Ht64 : Z.of_nat (alen mt) <= i64 (Z.shiftr t 3)) by (rewrite Ht8, i64_small by (pows; lia); lia).
  assert (Hbl : zlen (tb ++ [1]) = zlen tb + 1) by (rewrite zlen_app; reflexivity).
  split; [|split; [|split; [|split; [|split]]]].
  - unfold m_set_w, setSingle_w, WireVarint. cbn [mbuf moff msg_zero]. rewrite Et, Htb. cbn [rbind]. rewrite Hg. cbn [rbind app]. rewrite Ho. reflexivity.
  - unfold m_set, m_set_ord, SetBool_ord, setSingle_ord, WireVarint. cbn [mbuf moff msg_zero]. rewrite Et64, Htb64. cbn [rbind]. rewrite Hg. cbn [rbind app]. rewrite Ho64. reflexivity.
  - cbn [m_Encode mbuf]. intros E. apply app_inj_tail in E as [E _]. subst tb64.
    pose proof (uvarint_spec' _ _ (proj1 Hmin)) as U1. rewrite (uvarint_spec' _ _ (proj1 Hmin64)) in U1. injection U1 as U1. unfold t in U1. lia.
  - unfold m_Decode_w, Decode_w, fuel_of. cbn [m_Encode mbuf moff msg_zero decode_loop_w]. rewrite Hbl.
    replace (0 =? zlen tb + 1) with false by lia. replace (zlen tb + 1 <? 0) with false by lia.
    unfold slice_from at 1. rewrite Hbl. replace ((0 <=? 0) && (0 <=? zlen tb + 1)) with true by lia. cbn [rbind]. change (Z.to_nat 0) with 0%nat. rewrite drop_0, Hu.
    replace (zlen tb =? 0) with false by lia. rewrite i32_small by (change (2 ^ 31) with 2147483648; lia).
    replace (zlen tb + 1 <=? 0 + zlen tb) with false by lia. rewrite Hpanic, Hpanicg by (left; exact Ht32).
    destruct (is_repeated _ _); reflexivity.
  - unfold m_Decode, Decode, fuel_of. cbn [m_Encode mbuf moff msg_zero decode_loop]. rewrite Hbl.
    replace (0 =? zlen tb + 1) with false by lia. replace (zlen tb + 1 <? 0) with false by lia.
    unfold slice_from at 1. rewrite Hbl. replace ((0 <=? 0) && (0 <=? zlen tb + 1)) with true by lia. cbn [rbind]. change (Z.to_nat 0) with 0%nat. rewrite drop_0, Hu.
    replace (zlen tb =? 0) with false by lia. rewrite (i64_small (0 + zlen tb)) by (pows; lia).
    replace (zlen tb + 1 <=? 0 + zlen tb) with false by lia. rewrite Hpanic, Hpanicg by (right; exact Ht64).
    destruct (is_repeated _ _); reflexivity.
  - assert (Hcv : cvalid (mkCrec f (WVarint 1) tb64 [1])).
    { split; [split; [cbn; lia|cbn; rewrite Z.add_0_r; apply Hmin64]|apply small_varint; lia]. }
    destruct (decode_msg mt (msg_zero mt) [mkCrec f (WVarint 1) tb64 [1]]) as (o' & He & _).
    + constructor; [exact Hcv|constructor].
    + cbn [flat cbytes ct cp]. unfold cbytes. cbn [ct cp]. rewrite !zlen_app. change (zlen [1]) with 1. rewrite zlen_nil. pows. lia.
    + exact Hl.
    + constructor; [cbn; lia|constructor].
    + cbn [flat] in He. unfold cbytes in He. cbn [ct cp] in He. rewrite app_nil_r in He. eauto.
Qed.

(** A length prefix of 2^32 is cut to 0: a 32-bit Decode accepts this message,
    whose length prefix promises bytes that are not there (a 64-bit one reports it), and the
    accessor of the field then slices beyond any possible capacity, that is,
    panics. *)
Theorem C69_truncation_refuted :
  exists m m64, m_Decode_w i32 demo_mt (msg_zero demo_mt) [18; 128; 128; 128; 128; 16] = Ok (None, m) /\
    m_Decode demo_mt (msg_zero demo_mt) [18; 128; 128; 128; 128; 16] = Ok (Some ErrUnexpectedEOF, m64) /\
    m_get PBytes m 2 = PastLen.
Proof. eexists _, _. split; [vm_compute; reflexivity|]. split; vm_compute; reflexivity. Qed.

(** Field number 2^32+1 (not legal protobuf, but a well-formed varint) is taken for field 1. *)
Theorem C69_alias_refuted :
  exists bs m, wire [(4294967297, WVarint 5)] bs /\
    m_Decode_w i32 demo_mt (msg_zero demo_mt) bs = Ok (None, m) /\ m_get PInt32 m 1 = Ok (VNum 5) /\
    m_Decode demo_mt (msg_zero demo_mt) bs = Panic.
Proof.
  exists ([136; 128; 128; 128; 128; 1] ++ [5]). eexists. split; [|split; [vm_compute; reflexivity|split; vm_compute; reflexivity]].
  rewrite <- (app_nil_r (_ ++ _)). constructor; [|constructor]. exists [136; 128; 128; 128; 128; 1], [5]. split_and!; [reflexivity| |apply small_varint; lia].
  split; [cbn; lia|]. exists [136; 128; 128; 128; 128], 1. split_and!; try reflexivity; try lia; try (cbn; lia). repeat constructor; lia.
Qed.

(** A history to which the theorem applies: it decodes a foreign buffer, sets,
    replaces and appends (Demo.v); the stored sub-messages are messages. *)
Example C69_case :
  schema_ok demo_mt demo_sc /\ Z.of_nat (alen demo_mt) <= 2 ^ 28 /\ Forall (op_ok (Z.of_nat (alen demo_mt)) demo_sc) demo_os /\
  ops_size demo_os < 2 ^ 31 /\
  demo_sc 5 = Some KRepeated /\ read_repeated (spec_run demo_sc demo_os 5) = [[8; 1]; [8; 2]] /\ Forall plain [[8; 1]; [8; 2]] /\
  run_w i32 demo_mt demo_sc (msg_zero demo_mt) demo_os = Ok demo_m /\
  exists x1 x2, m_iterate_w i32 5 demo_mt demo_m 5 (msg_zero demo_mt) = Ok [(None, x1); (None, x2)] /\ m_get PInt32 x2 1 = Ok (VNum 2).
Proof.
  split_and!; [| | |reflexivity|reflexivity|reflexivity| |vm_compute; reflexivity|].
  - apply demo_schema_ok.
  - change (2 ^ 28) with 268435456. cbn. lia.
  - apply demo_ops_ok.
  - assert (H : forall v, 0 <= v < 128 -> plain [8; v]).
    { intros v Hv. exists [(1, WVarint v)]. split; [|repeat constructor; change (2 ^ 31) with 2147483648; cbn; lia].
      rewrite <- (app_nil_r [8; v]). constructor; [|constructor]. exists [8], [v].
      split_and!; [reflexivity|split; [cbn; lia|apply small_varint; cbn; lia]|apply small_varint; lia]. }
    repeat constructor; apply H; lia.
  - eexists _, _. split; [vm_compute; reflexivity|]. vm_compute. reflexivity.
Qed.

(** An input that is no message (a record cut off) to which it applies. *)
Example C69_any_case :
  of_type demo_mt (msg_zero demo_mt) /\ Forall is_byte [8; 5; 18; 100; 1] /\
  narrow (Z.of_nat (alen demo_mt)) [8; 5; 18; 100; 1] /\ (forall rs, ~ wire rs [8; 5; 18; 100; 1]).
Proof.
  split_and!; [reflexivity|repeat constructor; unfold is_byte; lia| |].
  - apply narrow_small; [repeat constructor; unfold is_byte; lia|vm_compute; reflexivity|]. repeat constructor; vm_compute; reflexivity.
  - assert (E : [8; 5; 18; 100; 1] = [8; 5] ++ [18; 100; 1]) by reflexivity. rewrite E. apply (not_wire_after (1, WVarint 5)).
    + exists [8], [5]. split_and!; [reflexivity|split; [cbn; lia|apply small_varint; cbn; lia]|apply small_varint; lia].
    + vm_compute. reflexivity.
    + intros rs Hw. apply wire_concrete in Hw as (cs & Hv & _ & He). destruct cs as [|c cs]; [discriminate He|].
      apply Forall_cons in Hv as [[Ht Hp] _]. cbn [flat] in He. unfold cbytes in He. rewrite <- app_assoc in He.
      pose proof (uvarint_spec _ _ (cp c ++ flat cs) (proj2 Ht)) as Hu. rewrite He in Hu.
      change (uvarint [18; 100; 1]) with (18, 1) in Hu. injection Hu as Hu1 Hu2. cbn [crecord fst snd] in Hu1.
      destruct (ct c) as [|x [|? ?]]; unfold zlen in Hu2; cbn [length] in Hu2; try lia. injection He as -> He.
      destruct (cw c) as [v|v|x|v]; cbn [wire_type payload_enc] in *; try lia.
      destruct Hp as (lb & Hlb & Hvb & _). rewrite Hlb in He. rewrite <- app_assoc in He.
      pose proof (uvarint_spec _ _ (x ++ flat cs) Hvb) as Hu. rewrite He in Hu. change (uvarint [100; 1]) with (100, 1) in Hu.
      injection Hu as Hu3 Hu4. apply (f_equal (@List.length Z)) in He. rewrite !app_length in He. cbn [length] in He. lia.
Qed.

Print Assumptions C69_same_history.
Print Assumptions C69_any_input.
Print Assumptions C69_wrap_refuted.
Print Assumptions C69_same_decode.
Print Assumptions C69_large_field_refuted.
Print Assumptions C69_truncation_refuted.
Print Assumptions C69_alias_refuted.
