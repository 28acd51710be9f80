(** * The cost of setting a field that is set *)
From Verif Require Import GoBase Spec VarintFacts OffsetsFacts RecFacts DecodeFacts SetFacts Heap HeapFacts Api GetFacts ApiInv ApiFacts.
From Verif Require Import Access AccessFacts AccessApi SpecGo SpecSpend SpendFacts SpendGet SpendSet.
From Coq Require Import ZifyBool.

Lemma cwp_old_len G o m l1 w pb r : stores G o m -> mbuf m = l1 ++ pb ++ r -> payload_enc w pb -> zlen pb < 2 ^ 63 ->
  cwp G (c_old_len o (zlen l1) (wire_type w)) (fun k res G' => G' = G /\ res = Ok (zlen pb) /\ (k <= 11)%nat).
Proof.
  intros HS Hm Hp Hlt. pose proof HS as [(s & Hb & Hs) _]. rewrite Hm in Hs.
  assert (Hl : 0 <= zlen l1 <= zlen (l1 ++ pb ++ r)) by (unfold zlen; rewrite app_length; lia).
  destruct (bytes_from _ _ _ _ Hs Hl) as (d & Hd & Hdb). rewrite drop_app_ge in Hdb by (unfold zlen; lia).
  replace (Z.to_nat (zlen l1) - length l1)%nat with 0%nat in Hdb by (unfold zlen; lia). rewrite drop_0 in Hdb.
  assert (Hload : forall A (k : option slice -> prog A) (Q : nat -> res A -> heap -> Prop),
    cwp G (k s) (fun k2 r G' => Q (S k2) r G') -> cwp G (bind (load_slice (Buf o)) k) Q).
  { intros A k Q HQ. apply cwp_bind, cwp_load. intros w0 Hw0. rewrite Hb in Hw0. injection Hw0 as <-. apply cwp_ret. cbn [as_slice]. exact HQ. }
  unfold c_old_len, WireVarint, WireFixed32, WireFixed64, WireBytes. destruct w as [v|v|bs|v]; cbn [wire_type Z.eqb Pos.eqb payload_enc] in *.
  - apply Hload, cwp_lift. rewrite Hd. apply cwp_bind. eapply cwp_mono; [apply cwp_uvarint, Hdb|]. cbv beta. intros k2 r2 G2 (-> & -> & Hk2).
    rewrite (uvarint_spec _ _ r Hp). rewrite (ulen_varint _ _ _ Hp) in Hk2. apply is_varint_ten in Hp. apply cwp_ret. split_and!; [reflexivity|reflexivity|lia].
  - apply is_fixed_len in Hp. apply cwp_ret. rewrite Hp. split_and!; [reflexivity|reflexivity|lia].
  - destruct Hp as (lb & -> & Hv & _). rewrite <- app_assoc in Hdb. apply Hload, cwp_lift. rewrite Hd. apply cwp_bind. eapply cwp_mono; [apply cwp_uvarint, Hdb|].
    cbv beta. intros k2 r2 G2 (-> & -> & Hk2). rewrite (uvarint_spec _ _ _ Hv). rewrite (ulen_varint _ _ _ Hv) in Hk2. apply is_varint_ten in Hv. apply cwp_ret.
    rewrite zlen_app in *. fold (zlen bs). pose proof (zlen_nonneg bs). pose proof (zlen_nonneg lb).
    rewrite (i64_small (zlen bs)) by lia. rewrite i64_small by lia. split_and!; [reflexivity|f_equal; lia|lia].
  - apply is_fixed_len in Hp. apply cwp_ret. rewrite Hp. split_and!; [reflexivity|reflexivity|lia].
Qed.

Lemma tame_copy s i v : 0 <= src_len v -> tame bytes_only (Z.to_nat (src_cost v)) (c_copy s i v) (fun _ => True).
Proof.
  intros Hv. unfold c_copy. cbn [catch bind]. destruct (h_from s i) as [[d|]| | |]; cbn; auto.
  assert (HW : forall bs, tame bytes_only (length bs) (c_write (sarr d) (soff d) bs) (fun _ => True)).
  { intros bs. eapply tame_mono; [apply tame_write|lia| |auto]. intros l [j ->]. eexists _, _. reflexivity. }
  set (n := Z.min (slen d) (src_len v)).
  assert (Hn : n <= src_len v) by (unfold n; lia).
  replace (Z.to_nat (src_cost v)) with ((Z.to_nat (src_cost v) - Z.to_nat (src_len v)) + (Z.to_nat (src_len v) + 0))%nat by (destruct v; cbn in *; lia).
  eapply (tame_bind _ _ _ (fun l => (length l <= Z.to_nat (src_len v))%nat)).
  - destruct v as [bs|s2]; cbn [c_src src_len src_cost] in *.
    + cbn. rewrite take_length. unfold zlen in *. lia.
    + eapply tame_mono; [apply tame_bytes|lia|intros l []|]. cbv beta. intros l Hl. lia.
  - intros l Hl. eapply (tame_bind _ _ _ (fun _ => True)); [eapply tame_mono; [apply HW|exact Hl|auto|auto]|]. intros _ _. exact I.
Qed.

Definition offs_of (o : nat) : loc -> Prop := fun l => exists i, l = Off o i.
Lemma tame_adjust_array k : forall i o fe rb, tame (offs_of o) (2 * k) (c_adjust_array k i o fe rb) (fun _ => True).
Proof.
  induction k as [|k IH]; intros i o fe rb; [exact I|]. replace (2 * S k)%nat with (1 + (1 + 2 * k))%nat by lia. cbn [c_adjust_array].
  eapply (tame_bind _ _ _ (fun _ => True)); [eapply tame_mono; [apply tame_load_num|reflexivity|intros l []|auto]|]. intros x _.
  eapply (tame_bind _ _ _ (fun _ => True)); [|intros _ _; apply IH].
  destruct (_ && _); cbn; [|exact I]. eexists; split; [reflexivity|]. split; [exists i; reflexivity|exact I].
Qed.
Lemma tame_adjust_keys n o l fe rb ks : tame (of_struct o) (8 * length ks) (c_adjust_keys n o l ks fe rb) (fun _ => True).
Proof.
  induction ks as [|k ks IH]; [exact I|]. cbn [length c_adjust_keys]. replace (8 * S (length ks))%nat with (1 + (7 + 8 * length ks))%nat by lia.
  eapply (tame_bind _ _ _ (fun _ => True)); [cbn; eexists; split; [reflexivity|]; intros w; exact I|]. intros x _.
  eapply (tame_bind _ _ _ (fun _ => True)); [|intros _ _; apply IH].
  destruct (x !! k); [|exact I]. destruct (_ <? _); [apply tame_offsets_set|exact I].
Qed.

(** The map has at most one entry per field. *)
Lemma map_bounded o t : owf o -> om o = Some t -> (length ((map_to_list t).*1) <= length (oa o))%nat.
Proof.
  intros (_ & H & _) Ht. rewrite fmap_length. change (length (map_to_list t)) with (size t).
  rewrite <- size_dom. transitivity (size (list_to_set (map Z.of_nat (seq 0 (length (oa o)))) : gset Z)).
  - apply subseteq_size. intros f Hf. apply elem_of_dom in Hf. specialize (H f). rewrite Ht in H. cbn [mget] in H.
    apply H in Hf as [H0 H1]. apply lookup_lt_Some in H1. apply elem_of_list_to_set, elem_of_list_In, in_map_iff. exists (Z.to_nat f). split; [lia|]. apply in_seq. lia.
  - rewrite size_list_to_set.
    + rewrite map_length, seq_length. reflexivity.
    + apply NoDup_fmap_2; [intros x y; lia|apply NoDup_seq].
Qed.

Section SetAgain.
Context (grow : Z -> Z -> Z) (n o : nat) (f : Z) (G : heap) (m : msg) (w : wval) (l1 pb r : list Z) (vl : list Z) (v : src).
Hypothesis HS : stores G o m.
Hypothesis Hn : zlen (oa (moff m)) = Z.of_nat n.
Hypothesis Hwf : owf (moff m).
Hypothesis Ho : offsets_get (moff m) f = Ok (zlen l1, true).
Hypothesis Hm : mbuf m = l1 ++ pb ++ r.
Hypothesis Hp : payload_enc w pb.
Hypothesis Hlt : zlen (mbuf m) < 2 ^ 63.
Hypothesis Hv : 0 <= src_len v.

Lemma kept_bytes_stores G' : kept bytes_only G G' -> exists s, G !! Buf o = Some (Hdr s) /\ G' !! Buf o = Some (Hdr s) /\ hlen s = zlen (mbuf m).
Proof.
  intros HK. destruct HS as [(s & Hb & Hs) _]. exists s. split; [exact Hb|]. split; [|eapply bytes_len, Hs]. apply HK; [|exact Hb]. intros (a & j & H). discriminate.
Qed.

(** A value of the same size. *)
Lemma cwp_set_same : zlen pb = zlen vl + src_len v ->
  cwp G (c_setSingle grow n o f (wire_type w) vl v) (fun k _ _ => Z.of_nat k <= 16 + zlen vl + src_cost v).
Proof.
  intros Hsz. assert (Hc : 0 <= src_cost v) by (destruct v; cbn in *; unfold zlen; lia). pose proof (zlen_nonneg vl).
  unfold c_setSingle. apply cwp_lift. destruct (put_uvarint _ _) as [tb| | |]; [|lia..].
  apply cwp_bind. eapply cwp_mono; [apply (cwp_offsets_get _ _ _ _ f HS Hn)|]. cbv beta. intros k1 r1 G1 (-> & -> & Hk1). rewrite Ho.
  rewrite Hm, !zlen_app in Hlt. pose proof (zlen_nonneg l1). pose proof (zlen_nonneg r). pose proof (zlen_nonneg pb).
  apply cwp_bind. eapply cwp_mono; [apply (cwp_old_len G o m l1 w pb r HS Hm Hp); lia|]. cbv beta. intros k2 r2 G2 (-> & -> & Hk2).
  replace (zlen pb =? zlen vl + src_len v) with true by lia.
  apply cwp_bind, cwp_load. intros w1 Hw1. apply cwp_ret.
  eapply cwp_tame_bind; [apply tame_copy; cbn; lia|..].
  { intros k3 G3 H3 _. cbn [src_cost src_len] in *. split_and!; lia. }
  cbv beta. intros k3 G3 x H3 _ _. cbn [src_cost src_len] in *.
  apply cwp_bind, cwp_load. intros w2 Hw2. apply cwp_ret.
  eapply cwp_tame_bind; [apply tame_copy, Hv|..].
  { intros k4 G4 H4 _. split_and!; lia. }
  cbv beta. intros k4 G4 y H4 _ _. apply cwp_ret. lia.
Qed.

(** Any value. *)
Lemma cwp_set_any tb : put_uvarint MaxVarintLen64 (make_tag f (wire_type w)) = Ok tb -> zlen tb <= zlen l1 ->
  cwp G (c_setSingle grow n o f (wire_type w) vl v) (fun k _ _ =>
    Z.of_nat k <= 160 + 8 * zlen (mbuf m) + 10 * Z.of_nat n + 4 * zlen vl + 2 * src_len v + src_cost v).
Proof.
  intros Htb Hle. assert (Hc : 0 <= src_cost v) by (destruct v; cbn in *; unfold zlen; lia). pose proof (zlen_nonneg vl).
  destruct (decide (zlen pb = zlen vl + src_len v)) as [E|E].
  { eapply cwp_mono; [apply cwp_set_same, E|]. cbv beta. intros. pose proof (zlen_nonneg (mbuf m)). lia. }
  assert (Hl10 : zlen tb <= 10) by (apply put_uvarint_len in Htb; unfold MaxVarintLen64 in Htb; unfold zlen; lia). pose proof (zlen_nonneg tb).
  unfold c_setSingle. apply cwp_lift. rewrite Htb.
  apply cwp_bind. eapply cwp_mono; [apply (cwp_offsets_get _ _ _ _ f HS Hn)|]. cbv beta. intros k1 r1 G1 (-> & -> & Hk1). rewrite Ho.
  assert (HL : zlen (mbuf m) = zlen l1 + zlen pb + zlen r) by (rewrite Hm, !zlen_app; lia). pose proof (zlen_nonneg l1). pose proof (zlen_nonneg r). pose proof (zlen_nonneg pb).
  apply cwp_bind. eapply cwp_mono; [apply (cwp_old_len G o m l1 w pb r HS Hm Hp); lia|]. cbv beta. intros k2 r2 G2 (-> & -> & Hk2).
  replace (zlen pb =? zlen vl + src_len v) with false by lia.
  pose proof HS as ((s & Hb & Hs) & HO & HM). pose proof (bytes_len _ _ _ Hs) as Hsl. rewrite HL in Hsl.
  rewrite (u64_small (zlen tb)) by (pows; lia). rewrite (u64_small (zlen pb)) by (pows; lia).
  rewrite (u64_small (zlen l1 - zlen tb)) by (pows; lia). rewrite (u64_small (zlen l1 + zlen pb)) by (pows; lia).
  replace (zlen l1 + zlen pb - (zlen l1 - zlen tb)) with (zlen pb + zlen tb) by lia. rewrite (u64_small (zlen pb + zlen tb)) by (pows; lia).
  cbv beta. apply cwp_bind, cwp_load. intros w1 Hw1. rewrite Hb in Hw1. injection Hw1 as <-. apply cwp_ret. cbn [as_slice].
  apply cwp_lift. destruct (h_from s (zlen l1 + zlen pb)) as [d| | |] eqn:Ed; [|lia..].
  assert (Hd : 0 <= hlen d <= zlen r).
  { unfold h_from in Ed. destruct s as [s|]; [|destruct (_ =? 0); [injection Ed as <-; cbn; lia|discriminate]].
    destruct (_ && _) eqn:E2; [|discriminate]. injection Ed as <-. cbn [hlen slen] in *. lia. }
  eapply cwp_tame_bind; [apply tame_copy; cbn; lia|..].
  { intros k3 G3 Hk3 _. cbn [src_cost src_len] in *. split_and!; lia. }
  cbv beta. intros k3 G3 x Hk3 HK3 _. cbn [src_cost src_len] in *.
  destruct (kept_bytes_stores _ HK3) as (s' & Hb' & Hb3 & Hl3). rewrite Hb in Hb'. injection Hb' as <-.
  apply cwp_bind, cwp_load. intros w2 Hw2. rewrite Hb3 in Hw2. injection Hw2 as <-. apply cwp_ret. cbn [as_slice].
  rewrite (u64_small (hlen s - (zlen pb + zlen tb))) by (pows; lia).
  apply cwp_lift. destruct (h_range s 0 (hlen s - (zlen pb + zlen tb))) as [s2| | |] eqn:E2; [|lia..].
  assert (Hs2 : hlen s2 = hlen s - (zlen pb + zlen tb)).
  { unfold h_range in E2. destruct s as [s|]; [|destruct (_ && _) eqn:E3; [injection E2 as <-; cbn in *; lia|discriminate]].
    destruct (_ && _) eqn:E3; [|discriminate]. injection E2 as <-. cbn [hlen slen] in *. lia. }
  apply cwp_bind, cwp_store. intros _.
  eapply cwp_tame_bind; [apply tame_adjust_array|..].
  { intros k4 G4 Hk4 _. split_and!; lia. }
  cbv beta. intros k4 G4 y Hk4 HK4 _.
  assert (Hb4 : G4 !! Buf o = Some (Hdr s2)) by (apply HK4; [intros [i H9]; discriminate|apply lookup_insert]).
  (* the map *)
  assert (Hmap : cwp G4 (c_adjust_map n o (zlen l1 + zlen pb) (zlen pb + zlen tb)) (fun k _ G' => Z.of_nat k <= 2 + 8 * Z.of_nat n /\ G' !! Buf o = Some (Hdr s2))).
  { assert (Hkeep : forall l w0, G !! l = Some w0 -> ~ bytes_only l -> l <> Buf o -> ~ offs_of o l -> G4 !! l = Some w0).
    { intros l w0 Hl N1 N2 N3. apply HK4; [exact N3|]. rewrite lookup_insert_ne by congruence. apply HK3; assumption. }
    unfold c_adjust_map. apply cwp_bind, cwp_load. intros w3 Hw3. apply cwp_ret. destruct (om (moff m)) as [t|] eqn:Et.
    - destruct HM as (l & HM1 & HM2).
      apply Hkeep in HM1; [|intros (a & j & H9); discriminate|discriminate|intros [i H9]; discriminate]. rewrite HM1 in Hw3. injection Hw3 as <-. cbn [as_ref].
      apply cwp_bind, cwp_load. intros w4 Hw4. apply Hkeep in HM2; [|intros (a & j & H9); discriminate|discriminate|intros [i H9]; discriminate]. rewrite HM2 in Hw4. injection Hw4 as <-.
      apply cwp_ret. cbn [as_map]. eapply cwp_mono; [apply (cwp_tame _ _ _ _ _ (tame_adjust_keys n o l _ _ _))|]. cbv beta. intros k5 r5 G5 (Hk5 & HK5 & _).
      pose proof (map_bounded _ _ Hwf Et) as Hbd. unfold zlen in Hn. split; [lia|]. apply HK5; [apply of_struct_buf|exact Hb4].
    - apply Hkeep in HM; [|intros (a & j & H9); discriminate|discriminate|intros [i H9]; discriminate]. rewrite HM in Hw3. injection Hw3 as <-. cbn [as_ref].
      apply cwp_ret. split; [lia|exact Hb4]. }
  apply cwp_bind. eapply cwp_mono; [exact Hmap|]. cbv beta. intros k5 r5 G5 [Hk5 Hb5]. destruct r5 as [u| | |]; [|lia..].
  assert (Hgrown : forall s0 v0, (if hlen s0 + src_len v0 <=? cap_of s0 then 0 else 1 + 2 * hlen s0) <= 1 + 2 * Z.max 0 (hlen s0)) by (intros; destruct (_ <=? _); lia).
  unfold c_set_new. apply cwp_bind. eapply cwp_mono; [apply (cwp_push grow o (Scratch tb) G5 s2 Hb5); [lia|cbn; lia]|]. cbv beta. intros k6 r6 G6 (Hk6 & _ & Hr6).
  pose proof (Hgrown s2 (Scratch tb)) as Hg6. cbn [src_cost src_len] in *. destruct r6 as [u6| | |]; [|lia..]. destruct Hr6 as (s3 & Hb6 & Hs3 & _).
  apply cwp_bind, cwp_load. intros w3 Hw3. apply cwp_ret.
  eapply cwp_tame_bind; [apply tame_offsets_set|..].
  { intros k7 G7 Hk7 _. split_and!; lia. }
  cbv beta. intros k7 G7 z Hk7 HK7 _.
  assert (Hb7 : G7 !! Buf o = Some (Hdr s3)) by (apply HK7; [apply of_struct_buf|exact Hb6]).
  apply cwp_bind. eapply cwp_mono; [apply (cwp_push grow o (Scratch vl) G7 s3 Hb7); [lia|cbn; lia]|]. cbv beta. intros k8 r8 G8 (Hk8 & _ & Hr8).
  pose proof (Hgrown s3 (Scratch vl)) as Hg8. cbn [src_cost src_len] in *. destruct r8 as [u8| | |]; [|lia..]. destruct Hr8 as (s4 & Hb8 & Hs4 & _).
  eapply cwp_mono; [apply (cwp_push grow o v G8 s4 Hb8); [lia|exact Hv]|]. cbv beta. intros k9 r9 G9 (Hk9 & _).
  pose proof (Hgrown s4 v) as Hg9. lia.
Qed.
End SetAgain.

(** A field that is not set. *)
Lemma cwp_set_first grow n o f G m typ vl v : stores G o m -> zlen (oa (moff m)) = Z.of_nat n -> offsets_get (moff m) f = Ok (0, false) -> 0 <= src_len v ->
  cwp G (c_setSingle grow n o f typ vl v) (fun k _ _ => Z.of_nat k <= 100 + 6 * zlen (mbuf m) + 4 * zlen vl + 2 * src_len v + src_cost v).
Proof.
  intros HS Hn Ho Hv. assert (Hc : 0 <= src_cost v) by (destruct v; cbn in *; unfold zlen; lia). pose proof (zlen_nonneg vl). pose proof (zlen_nonneg (mbuf m)).
  pose proof HS as [(s & Hb & Hs) _]. pose proof (bytes_len _ _ _ Hs) as Hsl.
  unfold c_setSingle. apply cwp_lift. destruct (put_uvarint _ _) as [tb| | |] eqn:Htb; [|lia..].
  assert (Hl10 : zlen tb <= 10) by (apply put_uvarint_len in Htb; unfold MaxVarintLen64 in Htb; unfold zlen; lia). pose proof (zlen_nonneg tb).
  apply cwp_bind. eapply cwp_mono; [apply (cwp_offsets_get _ _ _ _ f HS Hn)|]. cbv beta. intros k1 r1 G1 (-> & -> & Hk1). rewrite Ho.
  assert (Hgrown : forall s0 v0, (if hlen s0 + src_len v0 <=? cap_of s0 then 0 else 1 + 2 * hlen s0) <= 1 + 2 * Z.max 0 (hlen s0)) by (intros; destruct (_ <=? _); lia).
  unfold c_set_new. apply cwp_bind. eapply cwp_mono; [apply (cwp_push grow o (Scratch tb) G s Hb); [lia|cbn; lia]|]. cbv beta. intros k6 r6 G6 (Hk6 & _ & Hr6).
  pose proof (Hgrown s (Scratch tb)) as Hg6. cbn [src_cost src_len] in *. destruct r6 as [u6| | |]; [|lia..]. destruct Hr6 as (s3 & Hb6 & Hs3 & _).
  apply cwp_bind, cwp_load. intros w3 Hw3. apply cwp_ret.
  eapply cwp_tame_bind; [apply tame_offsets_set|..].
  { intros k7 G7 Hk7 _. split_and!; lia. }
  cbv beta. intros k7 G7 z Hk7 HK7 _.
  assert (Hb7 : G7 !! Buf o = Some (Hdr s3)) by (apply HK7; [apply of_struct_buf|exact Hb6]).
  apply cwp_bind. eapply cwp_mono; [apply (cwp_push grow o (Scratch vl) G7 s3 Hb7); [lia|cbn; lia]|]. cbv beta. intros k8 r8 G8 (Hk8 & _ & Hr8).
  pose proof (Hgrown s3 (Scratch vl)) as Hg8. cbn [src_cost src_len] in *. destruct r8 as [u8| | |]; [|lia..]. destruct Hr8 as (s4 & Hb8 & Hs4 & _).
  eapply cwp_mono; [apply (cwp_push grow o v G8 s4 Hb8); [lia|exact Hv]|]. cbv beta. intros k9 r9 G9 (Hk9 & _).
  pose proof (Hgrown s4 v) as Hg9. lia.
Qed.
