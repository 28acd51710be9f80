(** * Buffers that take quadratic time: Decode and Next on them *)
From Verif Require Import GoBase Spec VarintFacts OffsetsFacts RecFacts DecodeFacts Runtime GenApi Heap HeapFacts Api.
From Verif Require Import Access AccessFacts AccessApi SpecGo SpecSpend SpendFacts SpendGet SpendHostile SpendWorst SpendTotal.
From Coq Require Import ZifyBool.

Lemma small i : 0 <= i < 2 ^ 63 -> i64 i = i.
Proof. intros H. apply i64_small. lia. Qed.

Section walk.
Context {A : Type} (L : nat -> Z -> prog A) (I : heap -> Prop) (res0 : A) (p0 : list Z) (K : nat).
Let bs := p0 ++ worst K.
Let c := zlen p0.
Hypothesis HK : zlen bs < 2 ^ 62.
(** A record of field 0, of type 0 or 2. *)
Hypothesis Lstep : forall fuel idx tag size b2 sz G (Q : nat -> res A -> heap -> Prop), I G -> 0 <= idx < zlen bs ->
  uvarint (drop (Z.to_nat idx) bs) = (tag, size) -> size <> 0 -> 0 <= idx + size < zlen bs -> tag = 0 \/ tag = 2 ->
  drop (Z.to_nat (idx + size)) bs = b2 -> fieldDataSize tag b2 = Ok sz -> sz <> 0 -> 0 <= idx + size + sz <= zlen bs ->
  (forall k G', (ulen (drop (Z.to_nat idx) bs) + ulen b2 <= k)%nat -> I G' -> twp G' (L fuel (idx + size + sz)) (fun k2 r2 G2 => Q (k + k2)%nat r2 G2)) ->
  twp G (L (S fuel) idx) Q.
Hypothesis Lend : forall fuel G, I G -> twp G (L (S fuel) (zlen bs)) (fun _ r G' => r = Ok res0).

Lemma walk_jump j fuel G (Q : nat -> res A -> heap -> Prop) : (j <= K)%nat -> I G ->
  (forall k G', (11 <= k)%nat -> I G' -> twp G' (L fuel (c + 12 * Z.of_nat j + 13 + jump K j)) (fun k2 r2 G2 => Q (k + k2)%nat r2 G2)) ->
  twp G (L (S fuel) (c + 12 * Z.of_nat j + 2)) Q.
Proof.
  intros Hj HI Hn. pose proof (worst_zlen p0 K) as Hl. fold bs c in Hl. assert (Hc : 0 <= c) by apply zlen_nonneg.
  destruct (here_one _ _ _ (at_tag p0 K j Hj) ltac:(lia)) as (r1 & E1 & U1 & N1). fold bs c in E1.
  destruct (length_field p0 K HK j Hj) as (r2 & E2 & U2 & N2). fold bs c in E2.
  assert (Hr : 0 <= jump K j <= 12 * Z.of_nat K + 2 /\ 12 * Z.of_nat j + jump K j <= 24 * Z.of_nat K + 2) by (unfold jump; destruct (Nat.ltb_spec j K); lia).
  eapply (Lstep fuel _ 2 1 r2 (10 + jump K j)); try exact HI.
  - lia.
  - rewrite E1. exact U1.
  - lia.
  - lia.
  - right. reflexivity.
  - rewrite <- E2. f_equal. lia.
  - unfold fieldDataSize. change (2 =? WireVarint) with false. change (2 =? WireFixed32) with false. change (2 =? WireFixed64) with false. change (2 =? WireBytes) with true. cbv iota.
    rewrite U2. change (10 =? 0) with false. cbv iota. rewrite (small (jump K j)) by lia. rewrite small by lia. reflexivity.
  - lia.
  - lia.
  - rewrite E1, N1, N2. intros k G' Hk HI'. replace (c + 12 * Z.of_nat j + 2 + 1 + (10 + jump K j)) with (c + 12 * Z.of_nat j + 13 + jump K j) by lia. apply Hn; [lia|exact HI'].
Qed.
(** Anywhere in the run: back as far as it is to the end. *)
Lemma walk_run m j fuel G (Q : nat -> res A -> heap -> Prop) : (10 <= m <= 12 * K + 1)%nat -> (j <= K)%nat -> 24 * Z.of_nat K + 13 - 2 * Z.of_nat m = 12 * Z.of_nat j + 1 -> I G ->
  (forall k G', (m + 2 <= k)%nat -> I G' -> twp G' (L fuel (c + 12 * Z.of_nat j + 2)) (fun k2 r2 G2 => Q (k + k2)%nat r2 G2)) ->
  twp G (L (S fuel) (c + 24 * Z.of_nat K + 14 - Z.of_nat m)) Q.
Proof.
  intros Hm Hj E HI Hn. pose proof (worst_zlen p0 K) as Hl. fold bs c in Hl. assert (Hc : 0 <= c) by apply zlen_nonneg.
  pose proof (at_run p0 K m ltac:(lia)) as E1. fold bs c in E1.
  destruct (here_one _ _ _ (at_value p0 K j Hj) ltac:(lia)) as (r2 & E2 & U2 & N2). fold bs c in E2.
  eapply (Lstep fuel _ 0 (- (0 + Z.of_nat m + 1)) (0 :: r2) 1); try exact HI.
  - lia.
  - rewrite E1. apply uvarint_run. lia.
  - lia.
  - lia.
  - left. reflexivity.
  - rewrite <- E2. f_equal. lia.
  - unfold fieldDataSize. change (0 =? WireVarint) with true. cbv iota. rewrite U2. reflexivity.
  - lia.
  - lia.
  - rewrite E1, ulen_run, N2. intros k G' Hk HI'. replace (c + 24 * Z.of_nat K + 14 - Z.of_nat m + - (0 + Z.of_nat m + 1) + 1) with (c + 12 * Z.of_nat j + 2) by lia. apply Hn; [lia|exact HI'].
Qed.
Lemma walk_blocks d : forall j fuel G, (j + d = K)%nat -> I G ->
  twp G (L (2 * d + 2 + fuel) (c + 12 * Z.of_nat j + 2)) (fun k r _ => r = Ok res0 /\ (d * (6 * K + 19) <= k)%nat).
Proof.
  induction d as [|d IH]; intros j fuel G Hj HI.
  - change (2 * 0 + 2 + fuel)%nat with (S (S fuel)). apply (walk_jump j (S fuel) G); [lia|exact HI|]. intros k G' _ HI'.
    replace (c + 12 * Z.of_nat j + 13 + jump K j) with (zlen bs).
    + eapply twp_mono; [apply Lend, HI'|]. cbv beta. intros k2 r2 G2 ->. split; [reflexivity|lia].
    + pose proof (worst_zlen p0 K) as Hl. fold bs c in Hl. unfold jump. replace (j <? K)%nat with false by lia. lia.
  - replace (2 * S d + 2 + fuel)%nat with (S (S (2 * d + 2 + fuel))) by lia. apply (walk_jump j _ G); [lia|exact HI|]. intros k G' Hk HI'.
    replace (c + 12 * Z.of_nat j + 13 + jump K j) with (c + 24 * Z.of_nat K + 14 - Z.of_nat (12 * K - 6 * j)).
    + apply (walk_run _ (S j) _ G'); [lia|lia|lia|exact HI'|]. intros k2 G2 Hk2 HI2.
      eapply twp_mono; [apply (IH (S j) fuel G2); [lia|exact HI2]|]. cbv beta. intros k3 r3 G3 (-> & H3). split; [reflexivity|]. lia.
    + unfold jump. replace (j <? K)%nat with true by lia. lia.
Qed.
Lemma walk_all fuel G : I G -> twp G (L (2 * K + 3 + fuel) c) (fun k r _ => r = Ok res0 /\ (K * (6 * K + 19) <= k)%nat).
Proof.
  intros HI. pose proof (worst_zlen p0 K) as Hl. fold bs c in Hl. assert (Hc : 0 <= c) by apply zlen_nonneg.
  destruct (here_one _ _ _ (at_start p0 K) ltac:(lia)) as (r1 & E1 & U1 & N1). fold bs c in E1.
  destruct (here_one _ _ _ (at_value p0 K 0 ltac:(lia)) ltac:(lia)) as (r2 & E2 & U2 & N2). fold bs c in E2.
  replace (2 * K + 3 + fuel)%nat with (S (2 * K + 2 + fuel)) by lia.
  eapply (Lstep _ _ 0 1 (0 :: r2) 1); try exact HI.
  - lia.
  - rewrite E1. exact U1.
  - lia.
  - lia.
  - left. reflexivity.
  - rewrite <- E2. f_equal. lia.
  - unfold fieldDataSize. change (0 =? WireVarint) with true. cbv iota. rewrite U2. reflexivity.
  - lia.
  - lia.
  - intros k G' Hk HI'. replace (c + 1 + 1) with (c + 12 * Z.of_nat 0 + 2) by lia.
    eapply twp_mono; [apply (walk_blocks K 0 fuel G'); [lia|exact HI']|]. cbv beta. intros k3 r3 G3 (-> & H3). split; [reflexivity|]. lia.
Qed.
End walk.

Section on.
Context (s : option slice) (bs : list Z).
Hypothesis Hlt : zlen bs < 2 ^ 62.

Lemma decode_step n o reps fuel idx tag size b2 sz G (Q : nat -> res (option error) -> heap -> Prop) : (1 <= n)%nat ->
  ready G n o /\ bytes_at G s bs -> 0 <= idx < zlen bs ->
  uvarint (drop (Z.to_nat idx) bs) = (tag, size) -> size <> 0 -> 0 <= idx + size < zlen bs -> tag = 0 \/ tag = 2 ->
  drop (Z.to_nat (idx + size)) bs = b2 -> fieldDataSize tag b2 = Ok sz -> sz <> 0 -> 0 <= idx + size + sz <= zlen bs ->
  (forall k G', (ulen (drop (Z.to_nat idx) bs) + ulen b2 <= k)%nat -> ready G' n o /\ bytes_at G' s bs -> twp G' (c_decode_loop fuel n o s reps (idx + size + sz)) (fun k2 r2 G2 => Q (k + k2)%nat r2 G2)) ->
  twp G (c_decode_loop (S fuel) n o s reps idx) Q.
Proof.
  intros Hn [HR Hb] Hi HU Hs Hi2 Ht Hb2 Hf Hz Hi3 Hgo. cbn [c_decode_loop]. rewrite (bytes_len _ _ _ Hb).
  replace (idx =? zlen bs) with false by lia. replace (zlen bs <? idx) with false by lia.
  destruct (bytes_from G s bs idx Hb ltac:(lia)) as (d & Hd & Hdb). apply twp_lift. rewrite Hd.
  apply twp_bind. eapply twp_mono; [apply twp_uvarint, Hdb|]. cbv beta. intros k1 r1 G1 (-> & -> & ->). rewrite HU.
  replace (size =? 0) with false by lia. rewrite (small (idx + size)) by lia. replace (zlen bs <=? idx + size) with false by lia.
  replace (i64 (Z.shiftr tag 3)) with 0 by (destruct Ht as [-> | ->]; reflexivity). replace (Z.land tag 7) with tag by (destruct Ht as [-> | ->]; reflexivity).
  apply twp_bind. eapply twp_mono; [apply (twp_upd G n o s bs reps 0 (u64 (idx + size))); [unfold in_array; lia|exact HR|exact Hb]|]. cbv beta. intros k2 r2 G2 (-> & HR2 & Hb22).
  destruct (bytes_from G2 s bs (idx + size) Hb22 ltac:(lia)) as (d2 & Hd2 & Hdb2). apply twp_lift. rewrite Hd2. rewrite Hb2 in Hdb2.
  apply twp_bind. eapply twp_mono; [apply (twp_fieldDataSize G2 tag d2 b2 Hdb2 Ht)|]. cbv beta. intros k3 r3 G3 (-> & -> & ->). rewrite Hf.
  replace (sz =? 0) with false by lia. rewrite small by lia.
  eapply twp_mono; [apply (Hgo (ulen (drop (Z.to_nat idx) bs) + (k2 + ulen b2))%nat G2); [lia|auto]|]. cbv beta. intros k4 r4 G4 HQ. rewrite !Nat.add_assoc in *. exact HQ.
Qed.
Lemma decode_end n o reps fuel G : ready G n o /\ bytes_at G s bs -> twp G (c_decode_loop (S fuel) n o s reps (zlen bs)) (fun _ r G' => r = Ok None).
Proof. intros [_ Hb]. cbn [c_decode_loop]. rewrite (bytes_len _ _ _ Hb), Z.eqb_refl. reflexivity. Qed.

Lemma find_step f fuel idx tag size b2 sz G (Q : nat -> res (option Z) -> heap -> Prop) : f <> 0 ->
  bytes_at G s bs -> 0 <= idx < zlen bs ->
  uvarint (drop (Z.to_nat idx) bs) = (tag, size) -> size <> 0 -> 0 <= idx + size < zlen bs -> tag = 0 \/ tag = 2 ->
  drop (Z.to_nat (idx + size)) bs = b2 -> fieldDataSize tag b2 = Ok sz -> sz <> 0 -> 0 <= idx + size + sz <= zlen bs ->
  (forall k G', (ulen (drop (Z.to_nat idx) bs) + ulen b2 <= k)%nat -> bytes_at G' s bs -> twp G' (c_find_loop fuel s f (idx + size + sz)) (fun k2 r2 G2 => Q (k + k2)%nat r2 G2)) ->
  twp G (c_find_loop (S fuel) s f idx) Q.
Proof.
  intros Hn Hb Hi HU Hs Hi2 Ht Hb2 Hf Hz Hi3 Hgo. cbn [c_find_loop]. rewrite (bytes_len _ _ _ Hb).
  replace (idx <? zlen bs) with true by lia.
  destruct (bytes_from G s bs idx Hb ltac:(lia)) as (d & Hd & Hdb). apply twp_lift. rewrite Hd.
  apply twp_bind. eapply twp_mono; [apply twp_uvarint, Hdb|]. cbv beta. intros k1 r1 G1 (-> & -> & ->). rewrite HU.
  rewrite (small (idx + size)) by lia.
  replace (i64 (Z.shiftr tag 3)) with 0 by (destruct Ht as [-> | ->]; reflexivity). replace (Z.land tag 7) with tag by (destruct Ht as [-> | ->]; reflexivity).
  replace (0 =? f) with false by lia.
  destruct (bytes_from G s bs (idx + size) Hb ltac:(lia)) as (d2 & Hd2 & Hdb2). apply twp_lift. rewrite Hd2. rewrite Hb2 in Hdb2.
  apply twp_bind. eapply twp_mono; [apply (twp_fieldDataSize G tag d2 b2 Hdb2 Ht)|]. cbv beta. intros k3 r3 G3 (-> & -> & ->). rewrite Hf.
  rewrite small by lia.
  eapply twp_mono; [apply (Hgo (ulen (drop (Z.to_nat idx) bs) + ulen b2)%nat G); [lia|auto]|]. cbv beta. intros k4 r4 G4 HQ. rewrite !Nat.add_assoc in *. exact HQ.
Qed.
Lemma find_end f fuel G : bytes_at G s bs -> twp G (c_find_loop (S fuel) s f (zlen bs)) (fun _ r G' => r = Ok None).
Proof. intros Hb. cbn [c_find_loop]. rewrite (bytes_len _ _ _ Hb), Z.ltb_irrefl. reflexivity. Qed.
End on.

Lemma worst_decode more n o s reps K G : zlen (worst K) < 2 ^ 62 -> (1 <= n)%nat -> ready G n o -> bytes_at G s (worst K) ->
  twp G (c_decode more n o reps s) (fun k r _ => r = Ok None /\ (K * (6 * K + 19) <= k)%nat).
Proof.
  intros Hlt Hn HR Hb. unfold c_decode. apply twp_store; [apply HR|]. pose proof (worst_length K) as Hl.
  assert (HR1 : ready (<[Buf o:=Hdr s]> G) n o) by (apply ready_store; [discriminate|exact HR]).
  assert (Hb1 : bytes_at (<[Buf o:=Hdr s]> G) s (worst K)) by (eapply (bytes_kept (fun l => l = Buf o)); [apply kept_insert; reflexivity|discriminate|exact Hb]).
  apply twp_bind. eapply twp_mono; [apply (twp_clear _ n o s (worst K) HR1 Hb1)|]. cbv beta. intros k r G2 (-> & HR2 & Hb2).
  unfold loops. rewrite (bytes_len _ _ _ Hb). unfold zlen. rewrite Nat2Z.id, Hl.
  replace (more + S (S (24 * K + 15)))%nat with (2 * K + 3 + (more + 22 * K + 14))%nat by lia.
  pose proof (walk_all (fun fuel => c_decode_loop fuel n o s reps) (fun G => ready G n o /\ bytes_at G s (worst K)) None [] K Hlt) as W. cbv beta in W.
  eapply twp_mono; [apply W|].
  - intros fuel idx tag size b2 sz G' Q. apply (decode_step s (worst K) Hlt n o reps); exact Hn.
  - intros fuel G'. apply decode_end.
  - auto.
  - cbv beta. intros k2 r2 G3 (-> & H2). split; [reflexivity|lia].
Qed.
Lemma worst_find more s f K G : zlen (0 :: worst K) < 2 ^ 62 -> f <> 0 -> bytes_at G (Some s) (0 :: worst K) -> 0 <= slen s <= scap s ->
  twp G (c_find more (Some s) f) (fun k r _ => (exists msg, r = Ok (None, msg)) /\ (K * (6 * K + 19) <= k)%nat).
Proof.
  intros Hlt Hf Hb Hcap. unfold c_find. pose proof (worst_length K) as Hl.
  apply twp_bind. eapply twp_mono; [apply twp_uvarint, Hb|]. cbv beta. intros k1 r1 G1 (-> & -> & ->).
  assert (HU : uvarint (0 :: worst K) = (0, 1)) by reflexivity. rewrite HU. change (i64 (1 + i64 0)) with 1.
  apply twp_lift. unfold h_range. pose proof (bytes_len _ _ _ Hb) as Hz. cbn [hlen] in Hz. unfold zlen in Hz. cbn [length] in Hz.
  replace ((0 <=? 1) && (1 <=? 1) && (1 <=? scap s)) with true by lia.
  unfold loops. cbn [hlen]. replace (Z.to_nat (slen s)) with (24 * K + 16)%nat by lia.
  replace (more + S (S (24 * K + 16)))%nat with (2 * K + 3 + (more + 22 * K + 15))%nat by lia.
  pose proof (walk_all (fun fuel => c_find_loop fuel (Some s) f) (fun G => bytes_at G (Some s) (0 :: worst K)) None [0] K Hlt) as W. cbv beta in W. change (zlen [0]) with 1 in W.
  apply twp_bind. eapply twp_mono; [apply W|].
  - intros fuel idx tag size b2 sz G' Q. apply (find_step (Some s) (0 :: worst K) Hlt f); exact Hf.
  - intros fuel G'. apply find_end.
  - exact Hb.
  - cbv beta. intros k2 r2 G3 (-> & H2). cbn [twp ret]. split; [eauto|lia].
Qed.
