(** * The cost of Decode and Next *)
From Verif Require Import GoBase Spec VarintFacts OffsetsFacts RecFacts DecodeFacts SetFacts Heap HeapFacts Api GetFacts ApiInv ApiFacts SpecCost.
From Verif Require Import Access AccessFacts AccessApi SpecGo SpecSpend SpendFacts SpendGet.
From Coq Require Import ZifyBool.

(** The varint of a value: the value itself, or the length prefix. *)
Definition pay_cost (c : crec) : nat := Nat.min 10 (length (cp c)).
Definition rec_cost (c : crec) : nat := (length (ct c) + 10 + pay_cost c)%nat.

Lemma pay_ulen c r : payload_enc (cw c) (cp c) -> wire_type (cw c) = 0 \/ wire_type (cw c) = 2 -> (ulen (cp c ++ r) <= pay_cost c)%nat.
Proof.
  intros Hp Hw. pose proof (ulen_payload _ _ r Hp Hw). unfold pay_cost. apply Nat.min_glb; [assumption|].
  destruct (cw c) as [v|v|bs|v]; cbn [payload_enc wire_type] in *; [|lia| |lia].
  - rewrite (ulen_varint _ _ _ Hp). lia.
  - destruct Hp as (lb & -> & Hv & _). rewrite <- app_assoc, (ulen_varint _ _ _ Hv), app_length. lia.
Qed.
Lemma cwp_fieldDataSize G b c r : bytes_at G b (cp c ++ r) -> payload_enc (cw c) (cp c) -> zlen (cp c) < 2 ^ 63 ->
  cwp G (c_fieldDataSize (wire_type (cw c)) b) (fun k res G' => G' = G /\ res = Ok (zlen (cp c)) /\ (k <= pay_cost c)%nat).
Proof.
  intros Hb Hp Hlt. pose proof (fieldDataSize_ok _ _ r Hp Hlt) as Hf. revert Hf. unfold c_fieldDataSize, fieldDataSize.
  pose proof (pay_ulen c r Hp) as Hu. destruct (Z.eqb_spec (wire_type (cw c)) WireVarint) as [E|_].
  - intros Hf. apply cwp_bind. eapply cwp_mono; [apply cwp_uvarint, Hb|]. cbv beta. intros k r2 G2 (-> & -> & Hk). destruct (uvarint _) as [x n]. apply cwp_ret.
    split_and!; [reflexivity|rewrite <- Hf; reflexivity|]. specialize (Hu (or_introl E)). lia.
  - destruct (_ =? WireFixed32); [intros Hf; apply cwp_ret; split_and!; [reflexivity|rewrite <- Hf; reflexivity|lia]|].
    destruct (_ =? WireFixed64); [intros Hf; apply cwp_ret; split_and!; [reflexivity|rewrite <- Hf; reflexivity|lia]|].
    destruct (Z.eqb_spec (wire_type (cw c)) WireBytes) as [E|_]; [|discriminate]. specialize (Hu (or_intror E)).
    intros Hf. apply cwp_bind. eapply cwp_mono; [apply cwp_uvarint, Hb|]. cbv beta. intros k r2 G2 (-> & -> & Hk). destruct (uvarint _) as [x n].
    destruct (n =? 0); apply cwp_ret; (split_and!; [reflexivity|rewrite <- Hf; reflexivity|lia]).
Qed.
Lemma bytes_drop G s pre post : bytes_at G s (pre ++ post) -> exists d, h_from s (zlen pre) = Ok d /\ bytes_at G d post.
Proof.
  intros Hb. destruct (bytes_from G s _ (zlen pre) Hb) as (d & Hd & Hdb); [rewrite zlen_app; pose proof (zlen_nonneg pre); pose proof (zlen_nonneg post); lia|].
  exists d. split; [exact Hd|]. rewrite drop_app_ge in Hdb by (unfold zlen; lia). replace (Z.to_nat (zlen pre) - length pre)%nat with 0%nat in Hdb by (unfold zlen; lia). exact Hdb.
Qed.

Fixpoint recs_cost (cs : list crec) : nat := match cs with [] => 0%nat | c :: cs => (rec_cost c + recs_cost cs)%nat end.

Lemma cwp_decode_loop n o s reps cs : forall fuel pre G, bytes_at G s (pre ++ flat cs) -> Forall cvalid cs -> zlen (pre ++ flat cs) < 2 ^ 63 ->
  cwp G (c_decode_loop fuel n o s reps (zlen pre)) (fun k _ G' => kept (of_struct o) G G' /\ (k <= recs_cost cs)%nat).
Proof.
  induction cs as [|c cs IH]; intros fuel pre G Hb Hv Hlt; (destruct fuel as [|fuel]; cbn [c_decode_loop]; [apply cwp_stop; split; [apply kept_refl|lia]|]).
  - rewrite (bytes_len _ _ _ Hb). cbn [flat]. rewrite app_nil_r, Z.eqb_refl. apply cwp_ret. split; [apply kept_refl|lia].
  - apply Forall_cons in Hv as [[Ht Hp] Hv]. pose proof (tag_len _ _ Ht) as Htl. pose proof (payload_len_pos _ _ Hp) as Hpl.
    assert (Hflat : pre ++ flat (c :: cs) = pre ++ ct c ++ cp c ++ flat cs) by (cbn [flat]; unfold cbytes; rewrite <- app_assoc; reflexivity).
    rewrite Hflat in *. rewrite (bytes_len _ _ _ Hb). rewrite !zlen_app in *. pose proof (zlen_nonneg pre). pose proof (zlen_nonneg (flat cs)).
    replace (zlen pre =? _) with false by lia. replace (_ <? zlen pre) with false by lia.
    destruct (bytes_drop G s pre _ Hb) as (d & Hd & Hdb). apply cwp_lift. rewrite Hd.
    apply cwp_bind. eapply cwp_mono; [apply cwp_uvarint, Hdb|]. cbv beta. intros k1 r1 G1 (-> & -> & Hk1).
    rewrite (uvarint_spec _ _ _ (proj2 Ht)). rewrite (ulen_varint _ _ _ (proj2 Ht)) in Hk1.
    replace (zlen (ct c) =? 0) with false by lia. rewrite (i64_small (zlen pre + zlen (ct c))) by lia.
    replace (_ <=? zlen pre + zlen (ct c)) with false by lia.
    destruct (tag_field _ _ Ht) as (_ & -> & ->). cbn [crecord fst snd recs_cost]. unfold rec_cost.
    assert (Htame : tame (of_struct o) 10 (if is_repeated reps (cf c)
       then let! (_, ok) := c_offsets_get n o (cf c) in if (ok : bool) then ret tt else c_offsets_set n o (cf c) (u64 (zlen pre + zlen (ct c)))
       else c_offsets_set n o (cf c) (u64 (zlen pre + zlen (ct c)))) (fun _ => True)).
    { destruct (is_repeated _ _); [|eapply tame_mono; [apply tame_offsets_set|lia|auto|auto]].
      change 10%nat with (3 + 7)%nat. eapply (tame_bind _ _ _ (fun _ => True)); [eapply tame_mono; [apply tame_offsets_get|lia|intros l []|auto]|]. intros [x ok] _.
      destruct ok; [exact I|apply tame_offsets_set]. }
    eapply cwp_tame_bind; [exact Htame|..].
    { intros k2 G2 Hk2 HK2. split_and!; try exact HK2; lia. }
    cbv beta. intros k2 G2 u Hk2 HK2 _.
    assert (Hb2 : bytes_at G2 s (pre ++ ct c ++ cp c ++ flat cs)) by (eapply bytes_kept; [exact HK2|apply of_struct_bytes|exact Hb]).
    rewrite app_assoc in Hb2. destruct (bytes_drop G2 s (pre ++ ct c) _ Hb2) as (d2 & Hd2 & Hdb2). rewrite zlen_app in Hd2.
    apply cwp_lift. rewrite Hd2. apply cwp_bind. eapply cwp_mono; [apply (cwp_fieldDataSize G2 d2 c (flat cs) Hdb2 Hp); lia|].
    cbv beta. intros k3 r3 G3 (-> & -> & Hk3). replace (zlen (cp c) =? 0) with false by lia. rewrite i64_small by lia.
    rewrite app_assoc in Hb2. replace (zlen pre + zlen (ct c) + zlen (cp c)) with (zlen ((pre ++ ct c) ++ cp c)) by (rewrite !zlen_app; lia).
    eapply cwp_mono; [apply (IH fuel ((pre ++ ct c) ++ cp c) G2 Hb2 Hv); rewrite !zlen_app; lia|].
    cbv beta. intros k4 r4 G4 [HK4 Hk4]. split; [eapply kept_trans; eassumption|lia].
Qed.
Lemma cwp_decode more n o s reps cs G : bytes_at G s (flat cs) -> Forall cvalid cs -> zlen (flat cs) < 2 ^ 63 ->
  cwp G (c_decode more n o reps s) (fun k _ _ => (k <= n + 4 + recs_cost cs)%nat).
Proof.
  intros Hb Hv Hlt. unfold c_decode. apply cwp_bind, cwp_store. intros _.
  eapply cwp_tame_bind; [apply tame_clear|..].
  { intros k G' Hk _. split_and!; lia. }
  cbv beta. intros k G' u Hk HK _.
  assert (Hb2 : bytes_at G' s ([] ++ flat cs)).
  { eapply bytes_kept; [exact HK|apply of_struct_bytes|]. eapply (bytes_kept (fun l => l = Buf o)); [apply kept_insert; reflexivity| |exact Hb]. discriminate. }
  eapply cwp_mono; [apply (cwp_decode_loop n o s reps cs _ [] G' Hb2 Hv); exact Hlt|]. cbv beta. intros k2 r2 G2 [_ Hk2]. lia.
Qed.
Lemma recs_records cs : Forall cvalid cs -> (recs_cost cs <= 30 * length cs)%nat.
Proof.
  induction 1 as [|c cs [Ht Hp] Hv IH]; cbn [recs_cost length]; [lia|]. apply tag_len in Ht. unfold rec_cost, pay_cost, zlen in *. lia.
Qed.
Lemma recs_bytes cs : Forall cvalid cs -> (recs_cost cs <= 6 * length (flat cs))%nat.
Proof.
  induction 1 as [|c cs [Ht Hp] Hv IH]; cbn [recs_cost flat]; [lia|]. unfold cbytes. rewrite !app_length. apply tag_len in Ht. apply payload_len_pos in Hp.
  unfold rec_cost, pay_cost, zlen in *. lia.
Qed.

(** ** Next *)

Lemma cwp_find_loop s f cs : forall fuel pre G, bytes_at G s (pre ++ flat cs) -> Forall cvalid cs -> zlen (pre ++ flat cs) < 2 ^ 63 ->
  cwp G (c_find_loop fuel s f (zlen pre)) (fun k _ G' => G' = G /\ (k <= 20 * distance f (map crecord cs))%nat).
Proof.
  induction cs as [|c cs IH]; intros fuel pre G Hb Hv Hlt; (destruct fuel as [|fuel]; cbn [c_find_loop]; [apply cwp_stop; split; [reflexivity|lia]|]).
  - rewrite (bytes_len _ _ _ Hb). cbn [flat]. rewrite app_nil_r, Z.ltb_irrefl. apply cwp_ret. split; [reflexivity|lia].
  - apply Forall_cons in Hv as [[Ht Hp] Hv]. pose proof (tag_len _ _ Ht) as Htl. pose proof (payload_len_pos _ _ Hp) as Hpl.
    assert (Hflat : pre ++ flat (c :: cs) = pre ++ ct c ++ cp c ++ flat cs) by (cbn [flat]; unfold cbytes; rewrite <- app_assoc; reflexivity).
    rewrite Hflat in *. rewrite (bytes_len _ _ _ Hb). rewrite !zlen_app in *. pose proof (zlen_nonneg pre). pose proof (zlen_nonneg (flat cs)).
    replace (zlen pre <? _) with true by lia.
    destruct (bytes_drop G s pre _ Hb) as (d & Hd & Hdb). apply cwp_lift. rewrite Hd.
    apply cwp_bind. eapply cwp_mono; [apply cwp_uvarint, Hdb|]. cbv beta. intros k1 r1 G1 (-> & -> & Hk1).
    rewrite (uvarint_spec _ _ _ (proj2 Ht)). rewrite (ulen_varint _ _ _ (proj2 Ht)) in Hk1. pose proof (is_varint_ten _ _ (proj2 Ht)) as Ht10.
    rewrite (i64_small (zlen pre + zlen (ct c))) by lia.
    destruct (tag_field _ _ Ht) as (_ & -> & ->). cbn [crecord fst snd map distance].
    destruct (cf c =? f).
    + apply cwp_lift. destruct (h_from s (zlen pre + zlen (ct c))); [apply cwp_ret|..]; (split; [reflexivity|lia]).
    + rewrite app_assoc in Hb. destruct (bytes_drop G s (pre ++ ct c) _ Hb) as (d2 & Hd2 & Hdb2). rewrite zlen_app in Hd2.
      apply cwp_lift. rewrite Hd2. apply cwp_bind. eapply cwp_mono; [apply (cwp_fieldDataSize G d2 c (flat cs) Hdb2 Hp); lia|].
      cbv beta. intros k3 r3 G3 (-> & -> & Hk3). rewrite i64_small by lia.
      rewrite app_assoc in Hb. replace (zlen pre + zlen (ct c) + zlen (cp c)) with (zlen ((pre ++ ct c) ++ cp c)) by (rewrite !zlen_app; lia).
      eapply cwp_mono; [apply (IH fuel ((pre ++ ct c) ++ cp c) G Hb Hv); rewrite !zlen_app; lia|].
      cbv beta. intros k4 r4 G4 [-> Hk4]. split; [reflexivity|]. unfold pay_cost in Hk3. lia.
Qed.
Lemma cwp_find more it f lb x cs G : bytes_at G it (lb ++ x ++ flat cs) -> is_varint (Z.of_nat (length x)) lb -> Forall cvalid cs -> zlen (lb ++ x ++ flat cs) < 2 ^ 63 ->
  cwp G (c_find more it f) (fun k _ G' => G' = G /\ (k <= 10 + 20 * distance f (map crecord cs))%nat).
Proof.
  intros Hb Hl Hv Hlt. unfold c_find. destruct it as [s|]; [|apply cwp_ret; split; [reflexivity|lia]].
  apply cwp_bind. eapply cwp_mono; [apply cwp_uvarint, Hb|]. cbv beta. intros k1 r1 G1 (-> & -> & Hk1).
  rewrite (uvarint_spec _ _ _ Hl). rewrite (ulen_varint _ _ _ Hl) in Hk1. apply is_varint_ten in Hl. rewrite !zlen_app in Hlt.
  pose proof (zlen_nonneg lb). pose proof (zlen_nonneg x). pose proof (zlen_nonneg (flat cs)). fold (zlen x).
  rewrite (i64_small (zlen x)) by lia. rewrite i64_small by lia.
  apply cwp_lift. destruct (h_range _ _ _) as [msg| | |]; [|split; [reflexivity|lia]..].
  replace (zlen lb + zlen x) with (zlen (lb ++ x)) by (rewrite zlen_app; lia). rewrite app_assoc in Hb.
  apply cwp_bind. eapply cwp_mono; [apply (cwp_find_loop _ f cs _ (lb ++ x) G Hb Hv); rewrite !zlen_app; lia|].
  cbv beta. intros k2 r2 G2 [-> Hk2]. destruct r2 as [[i|]| | |]; [|apply cwp_ret; split; [reflexivity|lia]|split; [reflexivity|lia]..].
  apply cwp_lift. destruct (h_from _ i); [apply cwp_ret|..]; (split; [reflexivity|lia]).
Qed.
