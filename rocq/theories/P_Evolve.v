(** * Property C62: one schema writes, another reads *)
From Verif Require Import Api Demo Canon Evolve P_Canon.
From Verif Require Import VarintFacts RecFacts ApiFacts ApiInv.

(** [sc1] and [sc2] are any two versions of a message.  A message built with the
    first is decoded with the second and
    - keeps all its bytes;
    - a field in both, with compatible types, reads as the writer's value
      converted as in C++ ([convert], default if the writer never set it);
    - a field only the reader knows reads as its default;
    - the elements of a repeated field are the same; as a singular field it is
      the last element; a singular bytes, string or message field read as a
      repeated one has one element.
    Missing: fields with a number beyond the largest one of the reader ([Hr]); on
    these Decode panics, see below. *)
Theorem C62_evolution_partial mt1 sc1 os m mt2 sc2 m0 :
  schema_ok mt1 sc1 -> history mt1 sc1 os m -> Forall built os -> ops_size os < 2 ^ 63 ->
  schema_ok mt2 sc2 -> of_type mt2 m0 ->
  (forall f, Z.of_nat (alen mt2) <= f -> spec_run sc1 os f = []) ->
  exists m', m_Decode mt2 m0 (m_Encode m) = Ok (None, m') /\ m_Encode m' = m_Encode m /\
    (forall f T1 T2 v, sc1 f = Some (KSingle T1) -> sc2 f = Some (KSingle T2) -> compatible T1 T2 -> m_get T1 m f = Ok v ->
       m_get T2 m' f = Ok (if decide (spec_run sc1 os f = []) then default_of T2 else convert T2 v)) /\
    (forall f T2, sc1 f = None -> sc2 f = Some (KSingle T2) -> m_get T2 m' f = Ok (default_of T2)) /\
    (forall f mt' x, sc1 f = None -> sc2 f = Some KRepeated -> forall n, (0 < n)%nat -> m_iterate n mt' m' f x = Ok []) /\
    (forall f, sc1 f = Some KRepeated -> sc2 f = Some KRepeated -> forall mt' x n, (length (spec_run sc1 os f) < n)%nat ->
       m_iterate n mt' m' f x = m_iterate n mt' m f x) /\
    (forall f, sc1 f = Some KRepeated -> sc2 f = Some (KSingle PBytes) ->
       m_get PBytes m' f = Ok (VBytes (last (read_repeated (spec_run sc1 os f))))) /\
    (forall f T1 v, sc1 f = Some (KSingle T1) -> family_of T1 = FBytes -> sc2 f = Some KRepeated -> m_get T1 m f = Ok v ->
       forall mt' x n, (1 < n)%nat ->
       m_iterate n mt' m' f x = decode_each mt' x (if decide (spec_run sc1 os f = []) then [] else [as_bytes v])).
Proof. apply evolve. Qed.

(** The conversion is the identity where the value fits. *)
Theorem C62_convert_exact T1 T2 v : compatible T1 T2 -> in_type T1 v -> in_type T2 v -> convert T2 v = stored v.
Proof.
  intros _ _ Hin. destruct T2, v as [b|x|bs|[bs|]]; cbn in Hin; try contradiction; cbn [convert as_int as_bytes stored]; try reflexivity;
    try (destruct b; reflexivity); f_equal; revert Hin; unfold to_signed, to_unsigned; pows;
    change (2 ^ (32 - 1)) with 2147483648; change (2 ^ (64 - 1)) with 9223372036854775808; intros Hin;
    try (apply Z.mod_small; lia).
  all: first
    [destruct (Z.ltb_spec (x mod 18446744073709551616) 9223372036854775808); Z.div_mod_to_equations; lia
    |destruct (Z.ltb_spec (x mod 4294967296) 2147483648); Z.div_mod_to_equations; lia].
Qed.

(** A reader without the writer's last field does not skip it but panics. *)
Theorem C62_removed_last_field_refuted :
  exists mt1 sc1 os m mt2 sc2, schema_ok mt1 sc1 /\ history mt1 sc1 os m /\ Forall built os /\ schema_ok mt2 sc2 /\
    (forall f, sc2 f <> None -> sc2 f = sc1 f) /\
    m_Decode mt2 (msg_zero mt2) (m_Encode m) = Panic.
Proof.
  set (sc2 := fun f => if f =? 1 then Some (KSingle PInt32) else None).
  exists demo_mt, demo_sc, canon_os1, (after canon_os1), (mkMtype 2 []), sc2.
  destruct (canon_ok canon_os1 ltac:(auto)) as (H1 & H2 & _).
  assert (Hsc : forall f k, sc2 f = Some k -> f = 1 /\ k = KSingle PInt32).
  { intros f k. unfold sc2. destruct (Z.eqb_spec f 1); [intros [= <-]; auto|discriminate]. }
  split_and!; auto.
  - exact demo_schema_ok.
  - split_and!.
    + cbn. lia.
    + intros f k H. apply Hsc in H. cbn. lia.
    + intros f H. apply Hsc in H. destruct H as [_ [=]].
    + intros f T _ [].
  - intros f Hf. destruct (sc2 f) as [k|] eqn:E; [|done]. apply Hsc in E as [-> ->]. reflexivity.
Qed.

(** The reader widens field 1, reads the string 2 as bytes, the repeated field 5
    as a singular one, the sint32 6 as sint64, and adds fields 4 and 7. *)
Definition new_mt : mtype := mkMtype 9 [7].
Definition new_sc : schema := fun f =>
  if f =? 1 then Some (KSingle PUint64) else if f =? 2 then Some (KSingle PBytes)
  else if f =? 4 then Some (KSingle PBool) else if f =? 5 then Some (KSingle PBytes)
  else if f =? 6 then Some (KSingle PSint64) else if f =? 7 then Some KRepeated else None.
Lemma new_cases f k : new_sc f = Some k ->
  f = 1 /\ k = KSingle PUint64 \/ f = 2 /\ k = KSingle PBytes \/ f = 4 /\ k = KSingle PBool \/
  f = 5 /\ k = KSingle PBytes \/ f = 6 /\ k = KSingle PSint64 \/ f = 7 /\ k = KRepeated.
Proof.
  unfold new_sc.
  destruct (Z.eqb_spec f 1); [intros [= <-]; auto 10|]. destruct (Z.eqb_spec f 2); [intros [= <-]; auto 10|].
  destruct (Z.eqb_spec f 4); [intros [= <-]; auto 10|]. destruct (Z.eqb_spec f 5); [intros [= <-]; auto 10|].
  destruct (Z.eqb_spec f 6); [intros [= <-]; auto 10|]. destruct (Z.eqb_spec f 7); [intros [= <-]; auto 10|discriminate].
Qed.
Definition new_m : msg := match m_Decode new_mt (msg_zero new_mt) (m_Encode (after canon_os1)) with Ok (_, m) => m | _ => msg_zero new_mt end.
Example C62_case :
  (history demo_mt demo_sc canon_os1 (after canon_os1) /\ Forall built canon_os1 /\ ops_size canon_os1 < 2 ^ 63) /\
  schema_ok new_mt new_sc /\ of_type new_mt (msg_zero new_mt) /\
  (forall f, Z.of_nat (alen new_mt) <= f -> spec_run demo_sc canon_os1 f = []) /\
  compatible PInt32 PUint64 /\ compatible PString PBytes /\ compatible PSint32 PSint64 /\
  m_get PUint64 new_m 1 = Ok (VNum 3) /\ m_get PBytes new_m 2 = Ok (VBytes (Some [104; 105])) /\
  m_get PBytes new_m 5 = Ok (VBytes (Some [8; 2])) /\ m_get PSint64 new_m 6 = Ok (VNum (-1)) /\ m_get PBool new_m 4 = Ok (VBool false).
Proof.
  split; [apply canon_ok; auto|]. split.
  { split_and!.
    - cbn. lia.
    - intros f k H. apply new_cases in H. cbn. intuition lia.
    - intros f H. apply new_cases in H. cbn. intuition (try congruence); subst; auto.
    - intros f T H. apply new_cases in H. cbn. intuition (try congruence); subst; lia. }
  split_and!; try (vm_compute; reflexivity).
  intros f Hf. change (Z.of_nat (alen new_mt)) with 9 in Hf. unfold spec_run, canon_os1. cbn [fold_left spec_step].
  replace (f =? 1) with false by lia. replace (f =? 2) with false by lia. replace (f =? 5) with false by lia. replace (f =? 6) with false by lia.
  reflexivity.
Qed.

Print Assumptions C62_evolution_partial.
Print Assumptions C62_convert_exact.
Print Assumptions C62_removed_last_field_refuted.
