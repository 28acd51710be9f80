(** * Properties C14-C18: the offsets, Reset and Decode's independence of the past *)
From Verif Require Import Api Demo.
From Verif Require Import VarintFacts OffsetsFacts RecFacts ApiInv.
From Verif Require Import Core Core2 Core3.

(** C14.  After any sequence of Set and Clear on an [Offsets] over an array of
    [n] cells: Get of an id in range returns what the finite map [off_spec]
    holds, with presence "not 0"; an id out of range panics; a cell holds the
    sentinel exactly when the id is a key of the overflow map and exactly when
    the offset is too large for the array; the map has no other keys. *)
Theorem C14_offsets_map n ops :
  Forall (off_ok (Z.of_nat n)) ops ->
  exists o, off_run (offsets_zero n) ops = Ok o /\
    (forall f, 0 <= f < Z.of_nat n -> offsets_get o f = Ok (off_spec ops f, negb (off_spec ops f =? 0))) /\
    (forall f, ~ 0 <= f < Z.of_nat n -> offsets_get o f = Panic) /\
    (forall f, 0 <= f < Z.of_nat n ->
       (oa o !! Z.to_nat f = Some 65535 <-> exists m, om o = Some m /\ m !! f = Some (off_spec ops f)) /\
       (oa o !! Z.to_nat f = Some 65535 <-> 65534 < off_spec ops f)) /\
    (forall m f, om o = Some m -> is_Some (m !! f) -> 0 <= f < Z.of_nat n).
Proof. exact (offsets_map n ops). Qed.

(** Boundary offsets, moving an id into the map and back. *)
Example C14_case :
  let ops := [OffSet 1 65534; OffSet 2 65535; OffSet 0 65536; OffSet 2 7; OffSet 1 (2 ^ 64 - 1); OffSet 0 0] in
  Forall (off_ok (Z.of_nat 3)) ops /\
  match off_run (offsets_zero 3) ops with
  | Ok o => offsets_get o 0 = Ok (0, false) /\ offsets_get o 1 = Ok (2 ^ 64 - 1, true) /\
            offsets_get o 2 = Ok (7, true) /\ oa o = [0; 65535; 7]
  | _ => False
  end.
Proof.
  cbn zeta. split; [|vm_compute; auto].
  repeat (apply Forall_cons; split; [cbn; lia|]). constructor.
Qed.

(** C15.  If no intermediate message is longer than 65535 bytes, the overflow
    map is never allocated. *)
Theorem C15_no_map mt sc os m :
  schema_ok mt sc -> history mt sc os m -> ops_size os < 2 ^ 63 ->
  (forall os1 os2 m1, os = os1 ++ os2 -> run mt sc (msg_zero mt) os1 = Ok m1 -> zlen (m_Encode m1) <= 65535) ->
  om (moff m) = None.
Proof. exact (no_map mt sc os m). Qed.

Example C15_case :
  (forall os1 os2 m1, demo_os = os1 ++ os2 -> run demo_mt demo_sc (msg_zero demo_mt) os1 = Ok m1 -> zlen (m_Encode m1) <= 65535).
Proof.
  intros os1 os2 m1 He Hr.
  assert (Hp : Forall (op_ok (Z.of_nat (alen demo_mt)) demo_sc) os1).
  { pose proof demo_ops_ok as H. rewrite He in H. apply Forall_app in H. apply H. }
  assert (Hs : ops_size os1 <= ops_size demo_os).
  { rewrite He. clear. unfold ops_size. induction os1 as [|o os1 IH]; cbn [app foldr].
    - induction os2 as [|o os2 IH]; cbn [foldr]; [lia|].
      assert (0 <= op_size o) by (destruct o as [? [| | |[|]]| | |]; cbn; lia). lia.
    - lia. }
  assert (Hd : ops_size demo_os <= 1000) by (vm_compute; discriminate).
  destruct (hist_rep demo_mt demo_sc os1 m1 demo_schema_ok (conj Hp Hr)) as (_ & _ & _ & Hl).
  { change (2 ^ 63) with 9223372036854775808. lia. }
  unfold m_Encode. lia.
Qed.

(** The bound is sharp: one byte more and the map is allocated. *)
Example C15_sharp :
  let m := mkMsg (replicate 65534 0) (offsets_zero 3) in
  match m_set PBool m 1 (VBool true) with
  | Ok m' => zlen (m_Encode m') = 65536 /\ om (moff m') <> None
  | _ => False
  end.
Proof. vm_compute. split; [reflexivity|discriminate]. Qed.

(** C16.  [order] is any order in which the run-time may visit the keys of the
    map. *)
Theorem C16_set_order order T m f v :
  (forall ks, NoDup ks -> order ks ≡ₚ ks) -> m_set_ord order T m f v = m_set T m f v.
Proof. exact (m_set_order order T m f v). Qed.

(** A message whose map has two keys that both move. *)
Example C16_case :
  let order := fun ks : list Z => reverse ks in
  let m := mkMsg ([8; 1] ++ [18; 0] ++ [26; 0])
             (mkOffsets [0; 1; 65535; 65535] (Some (<[2 := 3]> (<[3 := 5]> ∅)))) in
  (forall ks, NoDup ks -> order ks ≡ₚ ks) /\ map_keys (moff m) <> reverse (map_keys (moff m)) /\
  match m_set_ord order PInt32 m 1 (VNum 300) with
  | Ok m' => m_Encode m' = [18; 0; 26; 0; 8; 172; 2] /\ oa (moff m') = [0; 5; 1; 3]
  | _ => False
  end.
Proof. cbn zeta. split; [intros ks _; apply reverse_Permutation|]. vm_compute. split_and!; auto; discriminate. Qed.

(** C17.  After Reset with an empty buffer no sequence of method calls can tell
    the struct from a fresh one; Reset with a non-empty buffer panics. *)
Theorem C17_reset_fresh mt m :
  of_type mt m ->
  (exists m', m_Reset m [] = Ok m' /\ m_Encode m' = [] /\
     forall cs, trace mt m' cs = trace mt (msg_zero mt) cs) /\
  (forall b bs, m_Reset m (b :: bs) = Panic).
Proof. exact (reset_fresh mt m). Qed.

Example C17_case : of_type demo_mt demo_m /\ moff demo_m <> moff (msg_zero demo_mt).
Proof. split; [reflexivity|discriminate]. Qed.

(** C18.  Two structs of one type, whatever they hold, show the same from a
    Decode on, for any later sequence of method calls. *)
Theorem C18_decode_forgets mt m1 m2 buf cs :
  of_type mt m1 -> of_type mt m2 ->
  trace mt m1 (CDecode buf :: cs) = trace mt m2 (CDecode buf :: cs).
Proof. exact (decode_forgets mt m1 m2 buf cs). Qed.

(** One struct holds the remains of a failed decode. *)
Example C18_case :
  match m_Decode demo_mt demo_m [8; 9; 18; 200] with
  | Ok (err, m1) => err = Some ErrUnexpectedEOF /\ of_type demo_mt m1 /\ m_get PInt32 m1 1 = Ok (VNum 9) /\
      trace demo_mt m1 [CDecode [18; 1; 65]; CGet PInt32 1; CGet PString 2] =
        ([AError None; AVal (VNum 0); AVal (VString [65])], Ok tt)
  | _ => False
  end.
Proof. vm_compute. auto. Qed.

Print Assumptions C14_offsets_map.
Print Assumptions C15_no_map.
Print Assumptions C16_set_order.
Print Assumptions C17_reset_fresh.
Print Assumptions C18_decode_forgets.
