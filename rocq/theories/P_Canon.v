(** * Properties C60, C61: size and order of the encoding of messages built with the API *)
From Verif Require Import Api Demo Canon.
From Verif Require Import VarintFacts RecFacts ApiFacts ApiInv.

(** ** C60: no dead bytes *)

(** A message built by any sequence of setters, AppendTo and Reset ([built]) is a
    shortest protobuf encoding of its contents: no protobuf byte string that means
    the same for the declared fields is shorter. *)
Theorem C60_minimal_size mt sc os m rs bs :
  schema_ok mt sc -> history mt sc os m -> Forall built os -> ops_size os < 2 ^ 63 ->
  wire rs bs ->
  (forall f T, sc f = Some (KSingle T) -> last_only (occ f rs) = spec_run sc os f) ->
  (forall f, sc f = Some KRepeated -> occ f rs = spec_run sc os f) ->
  (length (m_Encode m) <= length bs)%nat.
Proof. intros H1 H2 H3 H4 H5 H6 H7. apply (encode_minimal mt sc os m rs bs H1 H2 H3 H4 H5). split; assumption. Qed.

(** So the size depends on the contents only, not on how they came about. *)
Theorem C60_same_size mt sc os1 m1 os2 m2 :
  schema_ok mt sc -> history mt sc os1 m1 -> history mt sc os2 m2 -> Forall built os1 -> Forall built os2 ->
  ops_size os1 < 2 ^ 63 -> ops_size os2 < 2 ^ 63 ->
  (forall f, sc f <> None -> spec_run sc os1 f = spec_run sc os2 f) ->
  length (m_Encode m1) = length (m_Encode m2).
Proof.
  intros Hsc Hh1 Hh2 Hb1 Hb2 Hs1 Hs2 Heq. apply Nat.le_antisymm.
  - destruct (built_contents mt sc os2 m2 Hsc Hh2 Hb2 Hs2) as (rs & Hw & Hc1 & Hc2).
    apply (encode_minimal mt sc os1 m1 rs); try assumption. split.
    + intros f T Hf. rewrite Heq by congruence. eauto.
    + intros f Hf. rewrite Heq by congruence. eauto.
  - destruct (built_contents mt sc os1 m1 Hsc Hh1 Hb1 Hs1) as (rs & Hw & Hc1 & Hc2).
    apply (encode_minimal mt sc os2 m2 rs); try assumption. split.
    + intros f T Hf. rewrite <- Heq by congruence. eauto.
    + intros f Hf. rewrite <- Heq by congruence. eauto.
Qed.

(** Two ways to the same contents; the first overwrites long values. *)
Definition canon_os1 : list op :=
  [OSet 2 (VString [1; 2; 3; 4; 5; 6]); OSet 1 (VNum (-1)); OAppend 5 [8; 2]; OSet 6 (VNum 1000);
   OSet 2 (VString [104; 105]); OSet 1 (VNum 3); OSet 6 (VNum (-1))].
Definition canon_os2 : list op :=
  [OSet 3 (VBytes (Some [7])); OReset; OSet 1 (VNum 3); OSet 6 (VNum (-1)); OAppend 5 [8; 2]; OSet 2 (VString [104; 105])].
Definition after (os : list op) : msg := match run demo_mt demo_sc (msg_zero demo_mt) os with Ok m => m | _ => msg_zero demo_mt end.
Lemma canon_ok os : os = canon_os1 \/ os = canon_os2 -> history demo_mt demo_sc os (after os) /\ Forall built os /\ ops_size os < 2 ^ 63.
Proof.
  assert (Hset : forall f T v, demo_sc f = Some (KSingle T) -> in_type T v -> op_ok (Z.of_nat (alen demo_mt)) demo_sc (OSet f v)) by (intros; eexists; eauto).
  intros [-> | ->]; (split_and!; [split; [|vm_compute; reflexivity]|repeat constructor|vm_compute; reflexivity]);
    repeat (apply Forall_cons; split);
    try (eapply Hset; [reflexivity|cbn; first [lia|repeat constructor; lia]]); try apply Forall_nil; cbn; try exact I;
    split; first [reflexivity|repeat constructor; lia].
Qed.
Example C60_case :
  (history demo_mt demo_sc canon_os1 (after canon_os1) /\ Forall built canon_os1 /\ ops_size canon_os1 < 2 ^ 63) /\
  (history demo_mt demo_sc canon_os2 (after canon_os2) /\ Forall built canon_os2 /\ ops_size canon_os2 < 2 ^ 63) /\
  (forall f, demo_sc f <> None -> spec_run demo_sc canon_os1 f = spec_run demo_sc canon_os2 f) /\
  length (m_Encode (after canon_os1)) = 12%nat /\ length (m_Encode (after canon_os2)) = 12%nat.
Proof.
  split; [apply canon_ok; auto|]. split; [apply canon_ok; auto|]. split; [|vm_compute; auto].
  intros f Hf. destruct (demo_sc f) eqn:E; [|done]. clear Hf. unfold demo_sc in E.
  destruct (Z.eqb_spec f 1) as [E1|]; [rewrite E1; reflexivity|]. destruct (Z.eqb_spec f 2) as [E1|]; [rewrite E1; reflexivity|].
  destruct (Z.eqb_spec f 3) as [E1|]; [rewrite E1; reflexivity|]. destruct (Z.eqb_spec f 5) as [E1|]; [rewrite E1; reflexivity|].
  destruct (Z.eqb_spec f 6) as [E1|]; [rewrite E1; reflexivity|discriminate].
Qed.

(** ** C61: equal contents, equal bytes *)

(** The records of the two messages are the same up to order.  Missing: the same
    order; this is false of the code, see below. *)
Theorem C61_permutation_partial mt sc os1 m1 os2 m2 ps1 ps2 :
  schema_ok mt sc -> history mt sc os1 m1 -> history mt sc os2 m2 -> Forall built os1 -> Forall built os2 ->
  ops_size os1 < 2 ^ 63 -> ops_size os2 < 2 ^ 63 ->
  (forall f, sc f <> None -> spec_run sc os1 f = spec_run sc os2 f) ->
  wire_parts ps1 (m_Encode m1) -> wire_parts ps2 (m_Encode m2) -> Permutation ps1 ps2.
Proof. apply built_perm. Qed.

(** The bytes of equal messages differ if the fields were set in another order. *)
Theorem C61_order_refuted :
  exists mt sc os1 m1 os2 m2, schema_ok mt sc /\ history mt sc os1 m1 /\ history mt sc os2 m2 /\
    Forall built os1 /\ Forall built os2 /\ (forall f, spec_run sc os1 f = spec_run sc os2 f) /\
    m_Encode m1 <> m_Encode m2.
Proof.
  exists demo_mt, demo_sc, [OSet 1 (VNum 1); OSet 6 (VNum 2)], (after [OSet 1 (VNum 1); OSet 6 (VNum 2)]),
    [OSet 6 (VNum 2); OSet 1 (VNum 1)], (after [OSet 6 (VNum 2); OSet 1 (VNum 1)]).
  split_and!; [exact demo_schema_ok| | |repeat constructor|repeat constructor| |vm_compute; discriminate].
  - split; [|vm_compute; reflexivity]. repeat (apply Forall_cons; split; [eexists; split; [reflexivity|cbn; lia]|]). constructor.
  - split; [|vm_compute; reflexivity]. repeat (apply Forall_cons; split; [eexists; split; [reflexivity|cbn; lia]|]). constructor.
  - intros f. unfold spec_run. cbn [fold_left spec_step]. change (demo_sc 1) with (Some (KSingle PInt32)). change (demo_sc 6) with (Some (KSingle PSint32)).
    cbv iota. destruct (Z.eqb_spec f 1) as [->|]; [reflexivity|]. destruct (f =? 6); reflexivity.
Qed.

Example C61_case :
  exists ps1 ps2, wire_parts ps1 (m_Encode (after [OSet 1 (VNum 1); OSet 6 (VNum 2)])) /\
    wire_parts ps2 (m_Encode (after [OSet 6 (VNum 2); OSet 1 (VNum 1)])) /\ ps1 <> ps2 /\ Permutation ps1 ps2.
Proof.
  assert (H1 : record_enc (1, WVarint 1) [8; 1]).
  { exists [8], [1]. split_and!; [reflexivity|split; [cbn; lia|apply small_varint; cbn; lia]|apply small_varint; lia]. }
  assert (H2 : record_enc (6, WVarint 4) [48; 4]).
  { exists [48], [4]. split_and!; [reflexivity|split; [cbn; lia|apply small_varint; cbn; lia]|apply small_varint; lia]. }
  exists [((1, WVarint 1), [8; 1]); ((6, WVarint 4), [48; 4])], [((6, WVarint 4), [48; 4]); ((1, WVarint 1), [8; 1])].
  split_and!; [split; [|vm_compute; reflexivity]|split; [|vm_compute; reflexivity]|discriminate|constructor]; repeat constructor; assumption.
Qed.

Print Assumptions C60_minimal_size.
Print Assumptions C60_same_size.
Print Assumptions C61_permutation_partial.
Print Assumptions C61_order_refuted.
