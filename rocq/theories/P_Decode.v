(** * Properties C07-C09, C22, C25-C28, C36: Decode on arbitrary input, and the
    accessors and setters after it *)
From Verif Require Import Api Demo.
From Verif Require Import VarintFacts OffsetsFacts RecFacts DecodeFacts DecodeClass Fuel SetFacts GetFacts IterFacts ApiFacts ApiInv.
From Verif Require Import Core Core2 Core3 Core4 Core5 Core6.

(** ** C07, C09: what Decode does on an arbitrary byte string *)

(** On every byte string without an overlong varint or a length prefix beyond
    2^63 in record position, Decode ends in exactly one of three ways: it
    returns nil and the bytes are a well-formed message within the field range;
    it returns io.ErrUnexpectedEOF and the bytes are no well-formed message; it
    panics and a field number is out of range or a wire type unsupported.
    Missing with respect to C07 and C09: the excluded inputs and the panics; see
    the refutations below. *)
Theorem C07_C09_decode_class_partial mt m bs :
  of_type mt m -> Forall is_byte bs -> Z.of_nat (length bs) < 2 ^ 62 -> ~ malformed bs ->
  (exists m' rs, m_Decode mt m bs = Ok (None, m') /\ wire rs bs /\ Forall (fun r => r.1 < Z.of_nat (alen mt)) rs) \/
  (exists m', m_Decode mt m bs = Ok (Some ErrUnexpectedEOF, m') /\ forall rs, ~ wire rs bs) \/
  (m_Decode mt m bs = Panic /\ unsupported (Z.of_nat (alen mt)) bs).
Proof. exact (m_Decode_class mt m bs). Qed.

(** Conversely, such a record always makes Decode panic. *)
Theorem C09_unsupported_panics mt m bs :
  of_type mt m -> Z.of_nat (length bs) < 2 ^ 63 -> unsupported (Z.of_nat (alen mt)) bs -> m_Decode mt m bs = Panic.
Proof. exact (unsupported_panics mt m bs). Qed.

(** Not every byte string is malformed in the excluded sense. *)
Lemma wire_not_malformed rs bs : wire rs bs -> Z.of_nat (length bs) < 2 ^ 62 -> ~ malformed bs.
Proof.
  intros Hw Hl (rs1 & pre & rest & He & Hw1 & Hm).
  assert (Hl63 : zlen bs < 2 ^ 63) by (unfold zlen; revert Hl; change (2 ^ 62) with 4611686018427387904; pows; lia).
  apply wire_concrete in Hw as (cs & Hv & <- & <-). apply wire_concrete in Hw1 as (cs1 & Hv1 & <- & <-).
  assert (Hrest : exists cs2, Forall cvalid cs2 /\ rest = flat cs2).
  { clear Hm Hl. revert cs Hv He Hl63. induction cs1 as [|c1 cs1 IH]; intros cs Hv He Hl63.
    - exists cs. split; [exact Hv|]. cbn in He. congruence.
    - apply Forall_cons in Hv1 as [Hc1 Hv1]. destruct cs as [|c cs].
      + exfalso. cbn [flat] in He. symmetry in He. rewrite <- app_assoc in He. apply app_eq_nil in He as [He _].
        unfold cbytes in He. apply app_eq_nil in He as [He _]. destruct Hc1 as [Ht _]. apply tag_len in Ht. rewrite He, zlen_nil in Ht. lia.
      + apply Forall_cons in Hv as [Hc Hv]. cbn [flat] in *. rewrite <- app_assoc in He.
        destruct (cbytes_det c c1 _ _ Hc Hc1 Hl63 He) as (_ & _ & E).
        apply (IH Hv1 cs Hv E). rewrite zlen_app in Hl63. pose proof (zlen_nonneg (cbytes c)). lia. }
  destruct Hrest as (cs2 & Hv2 & ->).
  assert (Hsmall : zlen (flat cs2) <= zlen (flat cs)).
  { rewrite He, zlen_app. pose proof (zlen_nonneg (flat cs1)). lia. }
  assert (Hno : forall v vb r, is_varint v vb -> ~ overlong (vb ++ r)).
  { intros v vb r Hvb (init & lst & r' & E & H1 & H2 & H3).
    pose proof (uvarint_spec _ _ r Hvb) as Hu. pose proof (is_varint_len _ _ Hvb) as Hln.
    assert (Hpos : (uvarint (vb ++ r)).2 < 0).
    { rewrite E. clear -H1 H2 H3. unfold uvarint.
      assert (G : forall i x s, 0 <= i -> (9 < i + Z.of_nat (length init) \/ i + Z.of_nat (length init) = 9 /\ 1 < lst) ->
        (uvarint_loop (init ++ lst :: r') i x s).2 < 0).
      { clear H3. induction init as [|b init IH]; intros i x s Hi Hc; cbn [app uvarint_loop length] in *.
        - replace (lst <? 128) with true by lia.
          replace ((9 <? i) || ((i =? 9) && (1 <? lst))) with true by lia. cbn. lia.
        - apply Forall_cons in H1 as [Hb H1]. replace (b <? 128) with false by lia. apply IH; auto; lia. }
      apply G; [lia|]. lia. }
    rewrite Hu in Hpos. cbn in Hpos. lia. }
  destruct cs2 as [|c cs2].
  - destruct Hm as [(init & lst & r & E & _)|(tag & tb & r & E & Hvb & _)].
    + cbn in E. symmetry in E. apply app_eq_nil in E as [_ E]. discriminate.
    + cbn in E. symmetry in E. apply app_eq_nil in E as [-> _]. apply is_varint_len in Hvb. rewrite zlen_nil in Hvb. lia.
  - apply Forall_cons in Hv2 as [[Ht Hp] Hv2]. cbn [flat] in *. unfold cbytes in *. rewrite <- !app_assoc in *.
    destruct Hm as [Hm|(tag & tb & r & E & Hvb & Hm)]; [exact (Hno _ _ _ (proj2 Ht) Hm)|].
    pose proof (uvarint_spec _ _ (cp c ++ flat cs2) (proj2 Ht)) as Hu. rewrite E, (uvarint_spec _ _ _ Hvb) in Hu.
    injection Hu as Htag Htl. apply app_inj_1 in E as [E1 E2]; [|unfold zlen in Htl; lia]. subst tb r.
    destruct (tag_field _ _ Ht) as (_ & _ & Hwt). rewrite land_7 in Hwt. cbn [crecord fst snd] in Htag, Hwt. rewrite <- Htag in Hwt.
    destruct Hm as [[Hmt Hm]|[Hmt Hm]]; rewrite Hmt in Hwt.
    + destruct (cw c); cbn in Hwt; try discriminate. exact (Hno _ _ _ Hp Hm).
    + destruct (cw c) as [| |pbs|]; cbn in Hwt; try discriminate. destruct Hp as (lb & E3 & Hlb & Hby). rewrite E3, <- app_assoc in *.
      destruct Hm as [Hm|(len & lb2 & r2 & E4 & Hlb2 & Hbig)]; [exact (Hno _ _ _ Hlb Hm)|].
      pose proof (uvarint_spec _ _ (pbs ++ flat cs2) Hlb) as Hu. rewrite E4, (uvarint_spec _ _ _ Hlb2) in Hu. injection Hu as Hln _.
      rewrite !zlen_app in Hsmall. pose proof (zlen_nonneg (flat cs2)). pose proof (zlen_nonneg (ct c)). pose proof (zlen_nonneg lb).
      unfold zlen in *. revert Hl Hbig. change (2 ^ 62) with 4611686018427387904. pows. lia.
Qed.

Example C07_C09_case :
  of_type demo_mt demo_m /\ Forall is_byte demo_bs2 /\ ~ malformed demo_bs2 /\
  m_Decode demo_mt demo_m [8; 1; 99; 1] = Panic /\
  (exists m', m_Decode demo_mt demo_m [8; 1; 18; 3; 65] = Ok (Some ErrUnexpectedEOF, m')).
Proof.
  split; [reflexivity|]. split; [unfold is_byte, demo_bs2; repeat constructor; lia|].
  split; [apply (wire_not_malformed demo_rs); [exact demo_wire2|reflexivity]|].
  split; [reflexivity|eexists; reflexivity].
Qed.

(** Tools for the refutations. *)
Lemma not_wire_start bs rs : bs <> [] -> (uvarint bs).2 <= 0 -> ~ wire rs bs.
Proof.
  intros Hne Hu Hw. apply wire_concrete in Hw as (cs & Hv & _ & <-). destruct cs as [|c cs]; [contradiction|].
  apply Forall_cons in Hv as [[Ht _] _]. cbn [flat] in Hu. unfold cbytes in Hu. rewrite <- app_assoc in Hu.
  rewrite (uvarint_spec _ _ _ (proj2 Ht)) in Hu. cbn in Hu. apply tag_len in Ht. lia.
Qed.

Lemma not_wire_after r b1 rest : record_enc r b1 -> zlen (b1 ++ rest) < 2 ^ 63 ->
  (forall rs, ~ wire rs rest) -> forall rs, ~ wire rs (b1 ++ rest).
Proof.
  intros (tb & pb & -> & Ht & Hp) Hl Hrest rs Hw. apply wire_concrete in Hw as (cs & Hv & _ & He).
  set (c0 := mkCrec r.1 r.2 tb pb). assert (Hc0 : cvalid c0) by (split; [destruct r; exact Ht|exact Hp]).
  destruct cs as [|c cs].
  { cbn in He. symmetry in He. apply app_eq_nil in He as [He _]. apply app_eq_nil in He as [He _]. apply tag_len in Ht. rewrite He, zlen_nil in Ht. lia. }
  apply Forall_cons in Hv as [Hc Hv]. cbn [flat] in He.
  destruct (cbytes_det c0 c rest (flat cs) Hc0 Hc) as (_ & _ & E); [exact Hl|rewrite He; reflexivity|].
  apply (Hrest (map crecord cs)). apply wire_concrete. exists cs. auto.
Qed.

(** C07 is false: the record at index 22 is an overlong varint; binary.Uvarint
    reports it with a negative size, which Decode adds to its index, so that it
    continues inside the first record and from there reaches the end. *)
Definition bad_accept : list Z :=
  [10; 20] ++ [0; 0; 0; 0; 0; 0; 0; 0; 0; 0; 0; 18; 17; 0; 0; 0; 0; 0; 0; 0] ++
  [128; 128; 128; 128; 128; 128; 128; 128; 128; 2].

Theorem C07_accepts_only_wellformed_refuted :
  exists mt m bs m', of_type mt m /\ Forall is_byte bs /\
    m_Decode mt m bs = Ok (None, m') /\ forall rs, ~ wire rs bs.
Proof.
  exists (mkMtype 3 []), (msg_zero (mkMtype 3 [])), bad_accept. eexists. split_and!.
  - reflexivity.
  - unfold bad_accept. repeat constructor; unfold is_byte; lia.
  - vm_compute. reflexivity.
  - unfold bad_accept. rewrite app_assoc. apply (not_wire_after (1, WBytes [0; 0; 0; 0; 0; 0; 0; 0; 0; 0; 0; 18; 17; 0; 0; 0; 0; 0; 0; 0])).
    + exists [10], [20; 0; 0; 0; 0; 0; 0; 0; 0; 0; 0; 0; 18; 17; 0; 0; 0; 0; 0; 0; 0]. split_and!; [reflexivity| |].
      * split; [cbn; lia|]. apply small_varint. cbn. lia.
      * exists [20]. split_and!; [reflexivity|apply small_varint; cbn; lia|]. repeat constructor; unfold is_byte; lia.
    + reflexivity.
    + intros rs. apply not_wire_start; [discriminate|vm_compute; discriminate].
Qed.

(** Decode also accepts field number 0, which protobuf forbids. *)
Theorem C07_field_zero_refuted :
  exists mt m m', of_type mt m /\ m_Decode mt m [0; 0] = Ok (None, m').
Proof. exists (mkMtype 3 []), (msg_zero (mkMtype 3 [])). eexists. split; [reflexivity|vm_compute; reflexivity]. Qed.

(** C09 is false in three ways.  An 11-byte input on which Decode never returns,
    however many iterations it is given: ... *)
Theorem C09_terminates_refuted :
  exists mt m bs, of_type mt m /\ Forall is_byte bs /\ length bs = 11%nat /\
    forall fuel, Decode fuel bs (moff m) (reps mt) = OutOfFuel.
Proof.
  set (bs := [10; 245; 255; 255; 255; 255; 255; 255; 255; 255; 1]).
  exists (mkMtype 3 []), (msg_zero (mkMtype 3 [])), bs. split_and!; [reflexivity|unfold bs; repeat constructor; unfold is_byte; lia|reflexivity|].
  assert (He : Decode (fuel_of bs) bs (offsets_zero 3) [] = OutOfFuel) by (vm_compute; reflexivity).
  intros fuel. cbn [moff msg_zero reps alen].
  destruct (le_lt_dec (fuel_of bs) fuel) as [Hle|Hlt]; [rewrite decode_fuel_enough by exact Hle; exact He|].
  destruct (Decode fuel bs (offsets_zero 3) []) as [a| | |] eqn:E; [| | |reflexivity];
    exfalso; assert (E2 := decode_mono bs [] fuel (fuel_of bs) 0 (offsets_clear (offsets_zero 3)) ltac:(lia));
    unfold Decode in *; rewrite E in E2; rewrite He in E2; discriminate E2; discriminate.
Qed.

(** ... a well-formed message with a field number the struct has no slot for, ... *)
Theorem C09_unknown_field_refuted :
  exists mt m rs bs, of_type mt m /\ wire rs bs /\ m_Decode mt m bs = Panic.
Proof.
  exists (mkMtype 3 []), (msg_zero (mkMtype 3 [])), [(9, WVarint 1)], ([72; 1] ++ []). split_and!; [reflexivity| |vm_compute; reflexivity].
  constructor; [|constructor]. exists [72], [1]. split_and!; [reflexivity| |apply small_varint; lia].
  split; [cbn; lia|]. apply small_varint. cbn. lia.
Qed.

(** ... and a group tag. *)
Theorem C09_group_refuted : exists mt m, of_type mt m /\ m_Decode mt m [11; 12] = Panic.
Proof. exists (mkMtype 3 []), (msg_zero (mkMtype 3 [])). split; [reflexivity|vm_compute; reflexivity]. Qed.

(** ** C08 *)
Theorem C08_truncation mt m rs bs k :
  of_type mt m -> wire rs bs -> Forall (fun r => r.1 < Z.of_nat (alen mt)) rs -> Z.of_nat (length bs) < 2 ^ 63 ->
  (k <= length bs)%nat ->
  (exists j m', wire (take j rs) (take k bs) /\ m_Decode mt m (take k bs) = Ok (None, m')) \/
  ((forall rs', ~ wire rs' (take k bs)) /\ exists m', m_Decode mt m (take k bs) = Ok (Some ErrUnexpectedEOF, m')).
Proof. exact (truncation mt m rs bs k). Qed.

Example C08_case :
  wire demo_rs demo_bs2 /\
  (exists m', m_Decode demo_mt demo_m (take 8 demo_bs2) = Ok (Some ErrUnexpectedEOF, m')) /\
  (exists m', m_Decode demo_mt demo_m (take 10 demo_bs2) = Ok (None, m')).
Proof. split; [exact demo_wire2|]. split; eexists; vm_compute; reflexivity. Qed.

(** ** C22 *)
(** Missing: sint32 values of 2^32 and more, see below. *)
Theorem C22_foreign_varint_partial mt m0 f T v tb vb :
  of_type mt m0 -> 0 <= f < Z.of_nat (alen mt) -> ~ In f (reps mt) ->
  ptype_wire_type T = 0 -> tag_enc (f, WVarint v) tb -> is_varint v vb ->
  (T = PSint32 -> v < 2 ^ 32) ->
  exists m, m_Decode mt m0 (tb ++ vb) = Ok (None, m) /\ m_get T m f = Ok (value_of T (WVarint v)).
Proof. exact (foreign_varint mt m0 f T v tb vb). Qed.

Example C22_case :
  tag_enc (1, WVarint (2 ^ 64 - 1)) [8] /\ is_varint (2 ^ 64 - 1) [255; 255; 255; 255; 255; 255; 255; 255; 255; 1] /\
  value_of PInt32 (WVarint (2 ^ 64 - 1)) = VNum (-1) /\ value_of PUint32 (WVarint (2 ^ 64 - 1)) = VNum (2 ^ 32 - 1).
Proof.
  split; [split; [cbn; lia|apply small_varint; cbn; lia]|]. split; [|split; reflexivity].
  exists [255; 255; 255; 255; 255; 255; 255; 255; 255], 1. split_and!; try reflexivity; try lia; repeat constructor; lia.
Qed.

(** What the sint32 accessor returns on every varint: it decodes zig-zag first
    and truncates last ... *)
Theorem C22_sint32_all mt m0 f v tb vb :
  of_type mt m0 -> 0 <= f < Z.of_nat (alen mt) -> ~ In f (reps mt) ->
  tag_enc (f, WVarint v) tb -> is_varint v vb ->
  exists m, m_Decode mt m0 (tb ++ vb) = Ok (None, m) /\ m_get PSint32 m f = Ok (VNum (to_signed 32 (unzigzag v))).
Proof. exact (sint32_wide mt m0 f v tb vb). Qed.

(** ... which differs from truncating first, as the C++ implementation does. *)
Theorem C22_sint32_refuted :
  exists mt m bs m', of_type mt m /\ wire [(1, WVarint (2 ^ 32))] bs /\
    m_Decode mt m bs = Ok (None, m') /\ m_get PSint32 m' 1 <> Ok (value_of PSint32 (WVarint (2 ^ 32))).
Proof.
  exists (mkMtype 3 []), (msg_zero (mkMtype 3 [])), ([8; 128; 128; 128; 128; 16] ++ []). eexists. split_and!.
  - reflexivity.
  - constructor; [|constructor]. exists [8], [128; 128; 128; 128; 16]. split_and!; [reflexivity|split; [cbn; lia|apply small_varint; cbn; lia]|].
    exists [128; 128; 128; 128], 16. split_and!; try reflexivity; try lia; try (cbn; lia); repeat constructor; lia.
  - vm_compute. reflexivity.
  - vm_compute. discriminate.
Qed.

(** ** C25 *)
(** Missing: fields whose last record has a non-minimal tag or a wire type other
    than the declared one, see below. *)
Theorem C25_set_on_decoded_partial mt m0 rs bs f T v :
  of_type mt m0 -> Z.of_nat (alen mt) <= 2 ^ 29 -> wire rs bs -> Forall (fun r => r.1 < Z.of_nat (alen mt)) rs ->
  Z.of_nat (length bs) + 20 + pval_size v < 2 ^ 63 ->
  0 <= f < Z.of_nat (alen mt) -> ~ In f (reps mt) -> in_type T v ->
  (occ f rs = [] \/
   exists rs1 b1 w tb pb rs2 b2, bs = b1 ++ tb ++ pb ++ b2 /\ wire rs1 b1 /\ wire rs2 b2 /\
     minimal_tag_enc (f, w) tb /\ payload_enc w pb /\ occ f rs2 = [] /\ wire_type w = ptype_wire_type T) ->
  exists m m' rs', m_Decode mt m0 bs = Ok (None, m) /\ m_set T m f v = Ok m' /\
    m_get T m' f = Ok (stored v) /\
    wire rs' (m_Encode m') /\ (forall g, g <> f -> occ g rs' = occ g rs) /\
    (forall g T', g <> f -> 0 <= g < Z.of_nat (alen mt) -> ~ In g (reps mt) ->
       (forall w, last (occ g rs) = Some w -> conforms T' w) ->
       m_get T' m g = Ok (read_single T' (occ g rs)) /\ m_get T' m' g = m_get T' m g) /\
    (forall g, g <> f -> 0 <= g < Z.of_nat (alen mt) -> In g (reps mt) ->
       Forall (fun w => wire_type w = 2) (occ g rs) ->
       forall n mt' x, m_iterate n mt' m' g x = m_iterate n mt' m g x).
Proof. exact (set_on_decoded mt m0 rs bs f T v). Qed.

Example C25_case :
  wire demo_rs demo_bs2 /\ ~ In 1 (reps demo_mt) /\ in_type PInt32 (VNum 300) /\
  exists rs1 b1 w tb pb rs2 b2, demo_bs2 = b1 ++ tb ++ pb ++ b2 /\ wire rs1 b1 /\ wire rs2 b2 /\
     minimal_tag_enc (1, w) tb /\ payload_enc w pb /\ occ 1 rs2 = [] /\ wire_type w = ptype_wire_type PInt32.
Proof.
  split; [exact demo_wire2|]. split; [intros [H|[]]; discriminate|]. split; [cbn; lia|].
  pose proof demo_wire2 as Hw. unfold demo_rs, demo_bs2 in Hw.
  exists [(1, WVarint 5); (4, WBytes [97; 98]); (5, WBytes [8; 1])],
    ([136; 0; 133; 128; 0] ++ [34; 130; 0; 97; 98] ++ [42; 2; 8; 1] ++ []), (WVarint 7), [8], [7], [(3, WBytes [])], ([26; 0] ++ []).
  split_and!; try reflexivity.
  - assert (D : forall (r : record) rs b bs, record_enc r b -> zlen (b ++ bs) < 2 ^ 63 -> wire (r :: rs) (b ++ bs) -> record_enc r b) by auto.
    constructor; [|constructor; [|constructor; [|constructor]]].
    + exists [136; 0], [133; 128; 0]. split_and!; [reflexivity|split; [cbn; lia|exists [136], 0; split_and!; try reflexivity; try lia; repeat constructor; lia]|
        exists [133; 128], 0; split_and!; try reflexivity; try lia; try (cbn; lia); repeat constructor; lia].
    + exists [34], [130; 0; 97; 98]. split_and!; [reflexivity|split; [cbn; lia|apply small_varint; cbn; lia]|].
      exists [130; 0]. split_and!; [reflexivity|exists [130], 0; split_and!; try reflexivity; try lia; repeat constructor; lia|repeat constructor; unfold is_byte; lia].
    + exists [42], [2; 8; 1]. split_and!; [reflexivity|split; [cbn; lia|apply small_varint; cbn; lia]|].
      exists [2]. split_and!; [reflexivity|apply small_varint; cbn; lia|repeat constructor; unfold is_byte; lia].
  - constructor; [|constructor]. exists [26], [0]. split_and!; [reflexivity|split; [cbn; lia|apply small_varint; cbn; lia]|].
    exists [0]. split_and!; [reflexivity|apply small_varint; cbn; lia|constructor].
  - split; [cbn; lia|]. apply small_varint. cbn. lia.
  - apply small_varint. cbn. lia.
Qed.

(** A record with a tag of two bytes where one is enough: after the setter the
    encoding is no longer a message, since the setter removes only one of the
    two tag bytes. *)
Theorem C25_nonminimal_tag_refuted :
  exists mt m0 rs bs m m', of_type mt m0 /\ wire rs bs /\ Forall (fun r => r.1 < Z.of_nat (alen mt)) rs /\
    m_Decode mt m0 bs = Ok (None, m) /\ m_set PInt32 m 1 (VNum 300) = Ok m' /\
    m_Decode mt m0 (m_Encode m') = Panic.
Proof.
  exists (mkMtype 3 []), (msg_zero (mkMtype 3 [])), [(2, WVarint 5); (1, WVarint 1)], ([16; 5] ++ [136; 0; 1] ++ []).
  eexists _, _. split_and!; [reflexivity| |repeat constructor|vm_compute; reflexivity|vm_compute; reflexivity|vm_compute; reflexivity].
  constructor; [|constructor; [|constructor]].
  - exists [16], [5]. split_and!; [reflexivity|split; [cbn; lia|apply small_varint; cbn; lia]|apply small_varint; cbn; lia].
  - exists [136; 0], [1]. split_and!; [reflexivity|split; [cbn; lia|exists [136], 0; split_and!; try reflexivity; try lia; repeat constructor; lia]|apply small_varint; cbn; lia].
Qed.

(** A record of field 1 with wire type varint where the setter is that of a
    string: setting field 1 changes field 2. *)
Theorem C25_wire_type_refuted :
  exists mt m0 rs bs m m', of_type mt m0 /\ wire rs bs /\ Forall (fun r => r.1 < Z.of_nat (alen mt)) rs /\
    m_Decode mt m0 bs = Ok (None, m) /\ m_set PString m 1 (VString [97; 98; 99]) = Ok m' /\
    m_get PInt32 m 2 = Ok (VNum 1) /\ m_get PInt32 m' 2 = Ok (VNum 98).
Proof.
  exists (mkMtype 4 []), (msg_zero (mkMtype 4 [])), [(1, WVarint 3); (2, WVarint 1); (3, WVarint 1)], ([8; 3] ++ [16; 1] ++ [24; 1] ++ []).
  eexists _, _. split_and!; [reflexivity| |repeat constructor|vm_compute; reflexivity|vm_compute; reflexivity|vm_compute; reflexivity|vm_compute; reflexivity].
  constructor; [|constructor; [|constructor; [|constructor]]].
  - exists [8], [3]. split_and!; [reflexivity|split; [cbn; lia|apply small_varint; cbn; lia]|apply small_varint; cbn; lia].
  - exists [16], [1]. split_and!; [reflexivity|split; [cbn; lia|apply small_varint; cbn; lia]|apply small_varint; cbn; lia].
  - exists [24], [1]. split_and!; [reflexivity|split; [cbn; lia|apply small_varint; cbn; lia]|apply small_varint; cbn; lia].
Qed.

(** ** C26 *)
(** An undeclared field number beyond the largest declared one is not accepted:
    Decode panics, on every message containing one (this is also an instance of
    C09_unsupported_panics). *)
Theorem C26_out_of_range_refuted mt m rs1 b1 f w rb rs2 b2 :
  of_type mt m -> wire rs1 b1 -> record_enc (f, w) rb -> wire rs2 b2 ->
  Z.of_nat (alen mt) <= f -> Z.of_nat (length (b1 ++ rb ++ b2)) < 2 ^ 63 ->
  m_Decode mt m (b1 ++ rb ++ b2) = Panic.
Proof.
  intros Ht Hw1 (tb & pb & -> & Htag & Hp) Hw2 Hf Hl. apply unsupported_panics; [exact Ht|exact Hl|].
  exists rs1, b1, (8 * f + wire_type w), tb, (pb ++ b2). rewrite <- app_assoc. split_and!; auto.
  - apply Htag.
  - apply payload_len_pos in Hp. intros E. apply app_eq_nil in E as [-> _]. rewrite zlen_nil in Hp. lia.
  - left. pose proof (wire_type_range w). replace ((8 * f + wire_type w) / 8) with f; [exact Hf|]. apply (Z.div_unique _ _ _ (wire_type w)); lia.
Qed.

Example C26_out_of_range_case : record_enc (9, WVarint 1) [72; 1] /\ Z.of_nat (alen demo_mt) <= 9.
Proof.
  split; [|cbn; lia]. exists [72], [1]. split_and!; [reflexivity|split; [cbn; lia|apply small_varint; cbn; lia]|apply small_varint; cbn; lia].
Qed.

(** ** C27 *)
(** The accessors are safe after a Decode that returned nil, on the inputs of
    C07_C09_decode_class_partial and for fields whose last record has the wire
    type of the accessor (for varint accessors: always).  Missing: the excluded
    inputs and wire type mismatches, see below. *)
Theorem C27_accessors_after_decode_partial mt m bs m' :
  of_type mt m -> Forall is_byte bs -> Z.of_nat (length bs) < 2 ^ 62 -> ~ malformed bs -> m_Decode mt m bs = Ok (None, m') ->
  exists rs, wire rs bs /\
    (forall f T, 0 <= f < Z.of_nat (alen mt) -> ~ In f (reps mt) ->
       (ptype_wire_type T = 0 \/ forall w, last (occ f rs) = Some w -> wire_type w = ptype_wire_type T) ->
       exists v, m_get T m' f = Ok v) /\
    (forall f, 0 <= f < Z.of_nat (alen mt) -> In f (reps mt) -> Forall (fun w => wire_type w = 2) (occ f rs) ->
       forall mt' x n, (length (occ f rs) < n)%nat -> m_iterate n mt' m' f x = decode_each mt' x (read_repeated (occ f rs))).
Proof. exact (accessors_after_decode mt m bs m'). Qed.

Example C27_case : ~ malformed demo_bs2 /\ exists m', m_Decode demo_mt demo_m demo_bs2 = Ok (None, m').
Proof. split; [apply (wire_not_malformed demo_rs); [exact demo_wire2|reflexivity]|eexists; vm_compute; reflexivity]. Qed.

(** A varint record read with the string accessor: a run-time panic, or a
    slice expression beyond the length of the message (which panics or exposes
    memory behind the message, depending on the capacity). *)
Theorem C27_wire_type_refuted :
  (exists mt m rs bs m', of_type mt m /\ wire rs bs /\ m_Decode mt m bs = Ok (None, m') /\ m_get PString m' 1 = Panic) /\
  (exists mt m rs bs m', of_type mt m /\ wire rs bs /\ m_Decode mt m bs = Ok (None, m') /\ m_get PString m' 1 = PastLen).
Proof.
  split.
  - exists (mkMtype 3 []), (msg_zero (mkMtype 3 [])), [(1, WVarint (2 ^ 64 - 1))], ([8; 255; 255; 255; 255; 255; 255; 255; 255; 255; 1] ++ []).
    eexists. split_and!; [reflexivity| |vm_compute; reflexivity|vm_compute; reflexivity].
    constructor; [|constructor]. exists [8], [255; 255; 255; 255; 255; 255; 255; 255; 255; 1].
    split_and!; [reflexivity|split; [cbn; lia|apply small_varint; cbn; lia]|].
    exists [255; 255; 255; 255; 255; 255; 255; 255; 255], 1. split_and!; try reflexivity; try lia; repeat constructor; lia.
  - exists (mkMtype 3 []), (msg_zero (mkMtype 3 [])), [(1, WVarint 5)], ([8; 5] ++ []).
    eexists. split_and!; [reflexivity| |vm_compute; reflexivity|vm_compute; reflexivity].
    constructor; [|constructor]. exists [8], [5]. split_and!; [reflexivity|split; [cbn; lia|apply small_varint; cbn; lia]|apply small_varint; lia].
Qed.

(** ** C28 *)
(** Whatever Decode returned, the varint accessors are safe.  Missing: the other
    accessors, see below. *)
Theorem C28_varint_accessors_partial mt m bs err m' f T :
  of_type mt m -> Z.of_nat (length bs) < 2 ^ 63 -> m_Decode mt m bs = Ok (err, m') -> 0 <= f < Z.of_nat (alen mt) ->
  ptype_wire_type T = 0 -> exists v, m_get T m' f = Ok v.
Proof. exact (varint_getters_total mt m bs err m' f T). Qed.

Example C28_case : exists m', m_Decode demo_mt demo_m [8; 150] = Ok (Some ErrUnexpectedEOF, m') /\ m_get PInt32 m' 1 = Ok (VNum 0).
Proof. eexists. split; [vm_compute; reflexivity|vm_compute; reflexivity]. Qed.

(** A truncated bytes field: Decode reports it, but the field is indexed and its
    accessor panics. *)
Theorem C28_bytes_refuted :
  exists mt m bs m', of_type mt m /\ Forall is_byte bs /\
    m_Decode mt m bs = Ok (Some ErrUnexpectedEOF, m') /\ m_get PBytes m' 1 = Panic.
Proof.
  exists (mkMtype 3 []), (msg_zero (mkMtype 3 [])), [10; 255; 255; 255; 255; 255; 255; 255; 255; 255; 1].
  eexists. split; [reflexivity|]. split; [unfold is_byte; repeat (apply Forall_cons; split; [lia|]); constructor|]. split; [vm_compute; reflexivity|vm_compute; reflexivity].
Qed.

(** ** C36 *)
(** A sub-message split over two records: Decode returns no error, and the
    accessor shows only the last piece, where protobuf prescribes the merge (the
    fields of the concatenated payloads). *)
Theorem C36_split_submessage_refuted :
  exists mt m0 mt' x rs1 p1 rs2 p2 rs bs m y,
    of_type mt m0 /\ of_type mt' x /\ wire rs1 p1 /\ wire rs2 p2 /\
    wire rs bs /\ occ 1 rs = [WBytes p1; WBytes p2] /\
    m_Decode mt m0 bs = Ok (None, m) /\ m_Message mt' m 1 x = Ok (true, None, y) /\
    m_get PInt32 y 1 <> Ok (read_single PInt32 (occ 1 (rs1 ++ rs2))).
Proof.
  exists (mkMtype 3 []), (msg_zero (mkMtype 3 [])), (mkMtype 3 []), (msg_zero (mkMtype 3 [])),
    [(1, WVarint 1)], ([8; 1] ++ []), [(2, WVarint 2)], ([16; 2] ++ []),
    [(1, WBytes [8; 1]); (1, WBytes [16; 2])], ([10; 2; 8; 1] ++ [10; 2; 16; 2] ++ []).
  eexists _, _. split_and!; try reflexivity.
  - constructor; [|constructor]. exists [8], [1]. split_and!; [reflexivity|split; [cbn; lia|apply small_varint; cbn; lia]|apply small_varint; lia].
  - constructor; [|constructor]. exists [16], [2]. split_and!; [reflexivity|split; [cbn; lia|apply small_varint; cbn; lia]|apply small_varint; lia].
  - constructor; [|constructor; [|constructor]].
    + exists [10], [2; 8; 1]. split_and!; [reflexivity|split; [cbn; lia|apply small_varint; cbn; lia]|].
      exists [2]. split_and!; [reflexivity|apply small_varint; cbn; lia|repeat constructor; unfold is_byte; lia].
    + exists [10], [2; 16; 2]. split_and!; [reflexivity|split; [cbn; lia|apply small_varint; cbn; lia]|].
      exists [2]. split_and!; [reflexivity|apply small_varint; cbn; lia|repeat constructor; unfold is_byte; lia].
  - vm_compute. discriminate.
Qed.

(** What happens in general: only the last piece is decoded. *)
Theorem C36_last_piece_partial mt m0 rs1 f p rs2 bs :
  of_type mt m0 -> wire (rs1 ++ (f, WBytes p) :: rs2) bs ->
  Forall (fun r => r.1 < Z.of_nat (alen mt)) (rs1 ++ (f, WBytes p) :: rs2) -> Z.of_nat (length bs) < 2 ^ 63 ->
  (forall w, ~ In (f, w) rs2) -> ~ In f (reps mt) -> 0 <= f ->
  exists m, m_Decode mt m0 bs = Ok (None, m) /\
    forall mt' x, m_Message mt' m f x = let* (err, y) := m_Decode mt' x p in Ok (true, err, y).
Proof.
  intros Ht Hw Hr Hl Hn Hnr Hf0. destruct (element_errors mt m0 _ bs Ht Hw Hr Hl) as (m & Hd & _ & Hm).
  exists m. split; [exact Hd|]. apply Hm; [exact Hnr| |].
  - apply Forall_app in Hr as [_ Hr]. apply Forall_cons in Hr as [Hr _]. cbn in Hr. lia.
  - rewrite occ_app. cbn [occ]. rewrite Z.eqb_refl.
    assert (E : occ f rs2 = []).
    { destruct (occ f rs2) as [|w l] eqn:E; [reflexivity|]. exfalso. apply (Hn w), occ_In. rewrite E. left. reflexivity. }
    rewrite E, last_snoc. reflexivity.
Qed.

Print Assumptions C07_C09_decode_class_partial.
Print Assumptions C09_unsupported_panics.
Print Assumptions C07_accepts_only_wellformed_refuted.
Print Assumptions C07_field_zero_refuted.
Print Assumptions C09_terminates_refuted.
Print Assumptions C09_unknown_field_refuted.
Print Assumptions C09_group_refuted.
Print Assumptions C08_truncation.
Print Assumptions C22_foreign_varint_partial.
Print Assumptions C22_sint32_all.
Print Assumptions C22_sint32_refuted.
Print Assumptions C25_set_on_decoded_partial.
Print Assumptions C25_nonminimal_tag_refuted.
Print Assumptions C25_wire_type_refuted.
Print Assumptions C26_out_of_range_refuted.
Print Assumptions C27_accessors_after_decode_partial.
Print Assumptions C27_wire_type_refuted.
Print Assumptions C28_varint_accessors_partial.
Print Assumptions C28_bytes_refuted.
Print Assumptions C36_split_submessage_refuted.
Print Assumptions C36_last_piece_partial.
