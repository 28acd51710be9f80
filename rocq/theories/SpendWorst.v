(** * Buffers that take quadratic time: the bytes *)
From Verif Require Import GoBase Spec VarintFacts Runtime SpendGet.
From Coq Require Import ZifyBool.

(** An encoding with [n + 1] bytes. *)
Fixpoint groups (n : nat) (v : Z) : list Z :=
  match n with O => [v] | S n => (v mod 128 + 128) :: groups n (v / 128) end.
Definition wide (v : Z) : list Z := groups 9 v.

(** Block [j] begins at [12 * j + 1]: a record of field 0 with one byte, then one whose
    length leads to the run behind the blocks, the last one to the end. *)
Definition jump (K j : nat) : Z := if (j <? K)%nat then 12 * Z.of_nat K - 6 * Z.of_nat j + 1 else 12 * Z.of_nat K + 2.
Definition block (K j : nat) : list Z := 0 :: 2 :: wide (jump K j).
Definition worst (K : nat) : list Z := 0 :: concat (block K <$> seq 0 (S K)) ++ replicate (12 * K + 1) 128 ++ [0].

Lemma groups_length n : forall v, length (groups n v) = S n.
Proof. induction n as [|n IH]; intros v; cbn [groups length]; [reflexivity|]. rewrite IH. reflexivity. Qed.
Lemma wide_length v : length (wide v) = 10%nat. Proof. apply groups_length. Qed.
Lemma groups_varint n : forall v, 0 <= v < 2 ^ (7 * Z.of_nat n + 7) ->
  exists init last, groups n v = init ++ [last] /\ Forall (fun b => 128 <= b < 256) init /\ 0 <= last < 128 /\ base128 (groups n v) = v.
Proof.
  induction n as [|n IH]; intros v Hv.
  - exists [], v. change (2 ^ (7 * Z.of_nat 0 + 7)) with 128 in Hv. split_and!; [reflexivity|constructor|lia|lia|]. cbn [groups base128]. rewrite Z.mod_small by lia. lia.
  - cbn [groups base128]. assert (Hd : 0 <= v / 128 < 2 ^ (7 * Z.of_nat n + 7)).
    { split; [apply Z.div_pos; lia|]. apply Z.div_lt_upper_bound; [lia|]. change 128 with (2 ^ 7). rewrite <- Z.pow_add_r by lia. replace (7 + (7 * Z.of_nat n + 7)) with (7 * Z.of_nat (S n) + 7) by lia. lia. }
    destruct (IH _ Hd) as (init & lst & E & Hi & Hl & Hb). pose proof (Z.mod_pos_bound v 128 ltac:(lia)).
    exists ((v mod 128 + 128) :: init), lst. rewrite Hb, E. split_and!; [reflexivity|constructor; [lia|exact Hi]|lia|lia|].
    rewrite Zplus_mod, Z.mod_mod, Z_mod_same_full, Z.add_0_r, Z.mod_mod by lia. pose proof (Z.div_mod v 128 ltac:(lia)). lia.
Qed.
Lemma wide_varint v : 0 <= v < 2 ^ 63 -> is_varint v (wide v).
Proof.
  intros Hv. destruct (groups_varint 9 v) as (init & lst & E & Hi & Hl & Hb).
  { change (2 ^ (7 * Z.of_nat 9 + 7)) with (2 ^ 70). assert (2 ^ 63 < 2 ^ 70) by (apply Z.pow_lt_mono_r; lia). lia. }
  exists init, lst. fold (wide v) in *. split_and!; [exact E|exact Hi|lia|lia|rewrite wide_length; lia|exact Hb|].
  assert (2 ^ 63 < 2 ^ 64) by (apply Z.pow_lt_mono_r; lia). lia.
Qed.
Lemma groups_bytes n : forall v, 0 <= v < 2 ^ (7 * Z.of_nat n + 7) -> Forall is_byte (groups n v).
Proof.
  intros v Hv. destruct (groups_varint n v Hv) as (init & lst & -> & Hi & Hl & _). apply Forall_app. split; [eapply Forall_impl; [exact Hi|]; unfold is_byte; cbv beta; lia|].
  constructor; [unfold is_byte; lia|constructor].
Qed.

(** A run of continuation bytes. *)
Lemma uvarint_run m : forall i x s, 9 < i + Z.of_nat m -> uvarint_loop (replicate m 128 ++ [0]) i x s = (0, - (i + Z.of_nat m + 1)).
Proof.
  induction m as [|m IH]; intros i x s H; cbn [replicate app uvarint_loop].
  - replace (0 <? 128) with true by reflexivity. replace (9 <? i) with true by lia. cbn [orb]. f_equal. lia.
  - replace (128 <? 128) with false by reflexivity. rewrite IH by lia. f_equal. lia.
Qed.
Lemma ulen_run m : ulen (replicate m 128 ++ [0]) = S m.
Proof. induction m as [|m IH]; cbn [replicate app ulen]; [reflexivity|]. rewrite IH. reflexivity. Qed.

Lemma blocks_length K l : length (concat (block K <$> l)) = (12 * length l)%nat.
Proof. induction l as [|j l IH]; cbn [fmap list_fmap concat length]; [reflexivity|]. rewrite app_length, IH. unfold block. cbn [length]. rewrite wide_length. lia. Qed.
Lemma worst_length K : length (worst K) = (24 * K + 15)%nat.
Proof. unfold worst. cbn [length]. rewrite !app_length, blocks_length, seq_length, replicate_length. cbn [length]. lia. Qed.
Lemma worst_block K j : (j <= K)%nat -> exists pre post, worst K = pre ++ block K j ++ post /\ length pre = (12 * j + 1)%nat.
Proof.
  intros Hj. exists (0 :: concat (block K <$> seq 0 j)), (concat (block K <$> seq (S j) (K - j)) ++ replicate (12 * K + 1) 128 ++ [0]). split.
  - unfold worst. replace (S K) with (j + S (K - j))%nat by lia. rewrite seq_app. cbn [seq Nat.add]. rewrite fmap_app, concat_app. cbn [fmap list_fmap concat].
    rewrite <- !app_assoc. cbn [app]. reflexivity.
  - cbn [length]. rewrite blocks_length, seq_length. lia.
Qed.
Lemma worst_run K m : (m <= 12 * K + 1)%nat -> exists pre, worst K = pre ++ replicate m 128 ++ [0] /\ length pre = (24 * K + 14 - m)%nat.
Proof.
  intros Hm. exists (0 :: concat (block K <$> seq 0 (S K)) ++ replicate (12 * K + 1 - m) 128). split.
  - unfold worst. replace (12 * K + 1)%nat with ((12 * K + 1 - m) + m)%nat at 1 by lia. rewrite replicate_add. cbn [app]. rewrite <- !app_assoc. reflexivity.
  - cbn [length]. rewrite app_length, blocks_length, seq_length, replicate_length. lia.
Qed.
Lemma jump_range K j : (j <= K)%nat -> 24 * Z.of_nat K + 15 < 2 ^ 62 -> 0 <= jump K j < 2 ^ 62.
Proof. intros Hj HK. unfold jump. destruct (Nat.ltb_spec j K); lia. Qed.
Lemma worst_bytes K : 24 * Z.of_nat K + 15 < 2 ^ 62 -> Forall is_byte (worst K).
Proof.
  intros HK. unfold worst. constructor; [unfold is_byte; lia|]. apply Forall_app. split.
  - apply Forall_concat, Forall_fmap, Forall_forall. intros j Hj. apply elem_of_seq in Hj. cbn [compose]. unfold block.
    repeat (constructor; [unfold is_byte; lia|]). apply groups_bytes. pose proof (jump_range K j ltac:(lia) HK).
    assert (2 ^ 62 < 2 ^ (7 * Z.of_nat 9 + 7)) by (apply Z.pow_lt_mono_r; lia). lia.
  - apply Forall_app. split; [apply Forall_replicate; unfold is_byte; lia|constructor; [unfold is_byte; lia|constructor]].
Qed.

(** ** What is read where *)
(** [bs] continues with [x] at position [i]. *)
Definition here (bs : list Z) (i : Z) (x : list Z) : Prop := 0 <= i <= zlen bs /\ exists r, drop (Z.to_nat i) bs = x ++ r.
Lemma here_intro bs i pre x r : bs = pre ++ x ++ r -> i = zlen pre -> here bs i x.
Proof.
  intros -> ->. unfold here, zlen. split; [rewrite !app_length; lia|]. exists r. rewrite Nat2Z.id, drop_app. reflexivity.
Qed.
Lemma here_one bs i b : here bs i [b] -> 0 <= b < 128 -> exists r, 
  drop (Z.to_nat i) bs = b :: r /\ uvarint (b :: r) = (b, 1) /\ ulen (b :: r) = 1%nat.
Proof.
  intros (_ & r & E) Hb. exists r. split; [exact E|]. split; [|cbn [ulen]; replace (b <? 128) with true by lia; reflexivity].
  unfold uvarint. cbn [uvarint_loop]. replace (b <? 128) with true by lia. cbn. rewrite Z.shiftl_0_r. unfold u64. rewrite Z.mod_small by lia. reflexivity.
Qed.

Section at_offset.
Context (p0 : list Z) (K : nat).
Hypothesis HK : zlen (p0 ++ worst K) < 2 ^ 62.
Let bs := p0 ++ worst K.
Let c := zlen p0.

Lemma worst_zlen : zlen bs = c + 24 * Z.of_nat K + 15.
Proof. unfold bs, c. rewrite zlen_app. unfold zlen at 2. rewrite worst_length. lia. Qed.
Lemma at_start : here bs c [0].
Proof. eapply (here_intro bs c p0 [0]); [reflexivity|reflexivity]. Qed.
Lemma at_value j : (j <= K)%nat -> here bs (c + 12 * Z.of_nat j + 1) [0].
Proof.
  intros Hj. destruct (worst_block K j Hj) as (pre & post & E & Hl). eapply (here_intro _ _ (p0 ++ pre) [0]); [unfold bs; rewrite E; unfold block; rewrite <- app_assoc; reflexivity|].
  rewrite zlen_app. unfold c, zlen. lia.
Qed.
Lemma at_tag j : (j <= K)%nat -> here bs (c + 12 * Z.of_nat j + 2) [2].
Proof.
  intros Hj. destruct (worst_block K j Hj) as (pre & post & E & Hl). eapply (here_intro _ _ (p0 ++ pre ++ [0]) [2]); [unfold bs; rewrite E; unfold block; rewrite <- !app_assoc; reflexivity|].
  rewrite !zlen_app. unfold c, zlen. cbn [length]. lia.
Qed.
Lemma at_length j : (j <= K)%nat -> here bs (c + 12 * Z.of_nat j + 3) (wide (jump K j)).
Proof.
  intros Hj. destruct (worst_block K j Hj) as (pre & post & E & Hl). eapply (here_intro _ _ (p0 ++ pre ++ [0; 2]) (wide (jump K j))); [unfold bs; rewrite E; unfold block; rewrite <- !app_assoc; reflexivity|].
  rewrite !zlen_app. unfold c, zlen. cbn [length]. lia.
Qed.
Lemma at_run m : (m <= 12 * K + 1)%nat -> drop (Z.to_nat (c + 24 * Z.of_nat K + 14 - Z.of_nat m)) bs = replicate m 128 ++ [0].
Proof.
  intros Hm. destruct (worst_run K m Hm) as (pre & E & Hl). unfold bs. rewrite E, app_assoc. apply drop_app_alt. rewrite app_length. unfold c, zlen. lia.
Qed.
(** The length at the end of block [j]. *)
Lemma length_field j : (j <= K)%nat -> exists r, drop (Z.to_nat (c + 12 * Z.of_nat j + 3)) bs = r /\ uvarint r = (jump K j, 10) /\ ulen r = 10%nat.
Proof.
  intros Hj. destruct (at_length j Hj) as (_ & r & E). eexists. split; [exact E|].
  assert (Hlt : 24 * Z.of_nat K + 15 < 2 ^ 62). { pose proof worst_zlen. unfold bs in H. pose proof (zlen_nonneg p0). fold c in H0. lia. }
  pose proof (jump_range K j Hj Hlt) as Hr. assert (2 ^ 62 < 2 ^ 63) by (apply Z.pow_lt_mono_r; lia).
  assert (Hv : is_varint (jump K j) (wide (jump K j))) by (apply wide_varint; lia).
  rewrite (uvarint_spec _ _ _ Hv), (ulen_varint _ _ _ Hv). unfold zlen. rewrite wide_length. split; reflexivity.
Qed.
End at_offset.
