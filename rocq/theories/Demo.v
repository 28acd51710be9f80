(** * A concrete message type, history and message

    Used beside the theorems to show that their hypotheses are met by a
    non-trivial case.  The history decodes a foreign buffer with a duplicated
    non-repeated field, a field the schema does not declare, an element of a
    repeated field and an empty sub-message, then mutates it. *)
From Verif Require Import Api.
From Verif Require Import VarintFacts RecFacts.

Definition demo_mt : mtype := mkMtype 8 [5].

Definition demo_sc : schema := fun f =>
  if f =? 1 then Some (KSingle PInt32)
  else if f =? 2 then Some (KSingle PString)
  else if f =? 3 then Some (KSingle PBytes)
  else if f =? 5 then Some KRepeated
  else if f =? 6 then Some (KSingle PSint32)
  else None.

Definition demo_rs : list record :=
  [(1, WVarint 5); (4, WBytes [97; 98]); (5, WBytes [8; 1]); (1, WVarint 7); (3, WBytes [])].
Definition demo_bs : list Z :=
  [8; 5] ++ [34; 2; 97; 98] ++ [42; 2; 8; 1] ++ [8; 7] ++ [26; 0] ++ [].

(** The second buffer uses over-long (but legal) varints for tags and values. *)
Definition demo_bs2 : list Z :=
  [136; 0; 133; 128; 0] ++ [34; 130; 0; 97; 98] ++ [42; 2; 8; 1] ++ [8; 7] ++ [26; 0] ++ [].

Definition demo_os : list op :=
  [OSet 2 (VString [104]);
   ODecode demo_rs demo_bs;
   OSet 2 (VString [104; 105]);
   OAppend 5 [8; 2];
   OSet 1 (VNum 300);
   OSet 6 (VNum (-1));
   OSet 1 (VNum (-1))].

Definition demo_m : msg := Eval vm_compute in
  match run demo_mt demo_sc (msg_zero demo_mt) demo_os with Ok m => m | _ => msg_zero demo_mt end.

Lemma small_varint v : 0 <= v < 128 -> is_minimal_varint v [v].
Proof.
  intros Hv. split.
  - exists [], v. cbn. change (2 ^ 64) with 18446744073709551616. split_and!; try lia; try constructor.
    rewrite Z.mod_small by lia. lia.
  - intros bs' (init & lst & -> & _). rewrite app_length. cbn. lia.
Qed.

Lemma demo_wire_min : wire_min demo_rs demo_bs.
Proof.
  unfold demo_rs, demo_bs.
  assert (Hv : forall f v t, 0 <= f -> t = 8 * f + 0 -> 0 <= t < 128 -> 0 <= v < 128 -> record_enc_min (f, WVarint v) [t; v]).
  { intros f v t Hf -> Ht Hv. exists [8 * f + 0], [v]. split_and!; [reflexivity| |apply small_varint; lia].
    split; [cbn; lia|]. apply small_varint. cbn. lia. }
  assert (Hb : forall f bs t n, 0 <= f -> t = 8 * f + 2 -> 0 <= t < 128 -> n = Z.of_nat (length bs) -> n < 128 -> Forall is_byte bs ->
     record_enc_min (f, WBytes bs) (t :: n :: bs)).
  { intros f bs t n Hf -> Ht -> Hn Hbs. exists [8 * f + 2], (Z.of_nat (length bs) :: bs). split_and!; [reflexivity| |].
    - split; [cbn; lia|]. apply small_varint. cbn. lia.
    - exists [Z.of_nat (length bs)]. split_and!; [reflexivity|apply small_varint; lia|exact Hbs]. }
  repeat (apply wire_min_cons; [first [apply Hv; lia|apply Hb; try reflexivity; try lia; repeat constructor; unfold is_byte; lia]|]).
  constructor.
Qed.

Lemma demo_wire : wire demo_rs demo_bs.
Proof. apply wire_min_wire, demo_wire_min. Qed.

Lemma demo_wire2 : wire demo_rs demo_bs2.
Proof.
  unfold demo_rs, demo_bs2.
  assert (V : forall init lst v, Forall (fun b => 128 <= b < 256) init -> 0 <= lst < 128 -> (length init <= 9)%nat ->
    base128 (init ++ [lst]) = v -> v < 2 ^ 64 -> is_varint v (init ++ [lst])).
  { intros init lst v H1 H2 H3 H4 H5. exists init, lst. rewrite app_length. cbn. split_and!; auto; lia. }
  assert (V1 : forall v, 0 <= v < 128 -> is_varint v [v]) by (intros v Hv; apply small_varint, Hv).
  assert (B : forall l : list Z, forallb (fun b => (128 <=? b) && (b <? 256)) l = true -> Forall (fun b => 128 <= b < 256) l).
  { intros l Hl. apply Forall_forall. intros x Hx. apply elem_of_list_In in Hx. eapply forallb_forall in Hl; [|exact Hx]. cbn in Hl. lia. }
  apply wire_cons; [|apply wire_cons; [|apply wire_cons; [|apply wire_cons; [|apply wire_cons; [|constructor]]]]].
  - exists [136; 0], [133; 128; 0]. split_and!; [reflexivity| |].
    + split; [cbn; lia|]. apply (V [136] 0); [apply B; reflexivity|lia|cbn; lia|reflexivity|reflexivity].
    + apply (V [133; 128] 0); [apply B; reflexivity|lia|cbn; lia|reflexivity|reflexivity].
  - exists [34], [130; 0; 97; 98]. split_and!; [reflexivity|split; [cbn; lia|apply V1; cbn; lia]|].
    exists [130; 0]. split_and!; [reflexivity| |repeat constructor; unfold is_byte; lia].
    apply (V [130] 0); [apply B; reflexivity|lia|cbn; lia|reflexivity|reflexivity].
  - exists [42], [2; 8; 1]. split_and!; [reflexivity|split; [cbn; lia|apply V1; cbn; lia]|].
    exists [2]. split_and!; [reflexivity|apply V1; cbn; lia|repeat constructor; unfold is_byte; lia].
  - exists [8], [7]. split_and!; [reflexivity|split; [cbn; lia|apply V1; cbn; lia]|apply V1; cbn; lia].
  - exists [26], [0]. split_and!; [reflexivity|split; [cbn; lia|apply V1; cbn; lia]|].
    exists [0]. split_and!; [reflexivity|apply V1; cbn; lia|constructor].
Qed.

Lemma demo_range : Forall (fun r : record => r.1 < Z.of_nat (alen demo_mt)) demo_rs.
Proof. repeat constructor. Qed.

Lemma demo_schema_ok : schema_ok demo_mt demo_sc.
Proof.
  assert (Hcase : forall f k, demo_sc f = Some k ->
    f = 1 /\ k = KSingle PInt32 \/ f = 2 /\ k = KSingle PString \/ f = 3 /\ k = KSingle PBytes \/
    f = 5 /\ k = KRepeated \/ f = 6 /\ k = KSingle PSint32).
  { intros f k. unfold demo_sc.
    destruct (Z.eqb_spec f 1); [intros [= <-]; auto 10|]. destruct (Z.eqb_spec f 2); [intros [= <-]; auto 10|].
    destruct (Z.eqb_spec f 3); [intros [= <-]; auto 10|]. destruct (Z.eqb_spec f 5); [intros [= <-]; auto 10|].
    destruct (Z.eqb_spec f 6); [intros [= <-]; auto 10|discriminate]. }
  split_and!.
  - cbn. lia.
  - intros f k H. apply Hcase in H. cbn. intuition lia.
  - intros f H. apply Hcase in H. cbn. intuition (try congruence); subst; auto.
  - intros f T H. apply Hcase in H. cbn. intuition (try congruence); subst; lia.
Qed.

Lemma demo_ops_ok : Forall (op_ok (Z.of_nat (alen demo_mt)) demo_sc) demo_os.
Proof.
  unfold demo_os.
  apply Forall_cons; split; [exists PString; split; [reflexivity|cbn; repeat constructor; lia]|].
  apply Forall_cons; split.
  { split; [exact demo_wire_min|]. repeat (apply Forall_cons; split; [split; [cbn; lia|]|]); try constructor; cbn; auto; exact I. }
  apply Forall_cons; split; [exists PString; split; [reflexivity|cbn; repeat constructor; lia]|].
  apply Forall_cons; split; [split; [reflexivity|repeat constructor; unfold is_byte; lia]|].
  repeat (apply Forall_cons; split; [eexists; split; [reflexivity|cbn; lia]|]). constructor.
Qed.

Lemma demo_history : history demo_mt demo_sc demo_os demo_m.
Proof. split; [exact demo_ops_ok|reflexivity]. Qed.

(** What the demo message looks like: the bytes, with the unknown record in
    place and the re-set fields moved to the end. *)
Example demo_bytes :
  m_Encode demo_m =
  [8; 5] ++ [34; 2; 97; 98] ++ [42; 2; 8; 1] ++ [26; 0] ++ [18; 2; 104; 105] ++ [42; 2; 8; 2] ++
  [48; 1] ++ [8; 255; 255; 255; 255; 255; 255; 255; 255; 255; 1].
Proof. reflexivity. Qed.
