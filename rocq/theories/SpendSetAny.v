(** * What setters and appends cost on any struct

    SpendMore.v counts a setter on structs that hold well-formed bytes and the positions
    of their fields.  Here bytes and positions are any; the overflow map has [e] entries. *)
From Verif Require Import GoBase Spec VarintFacts OffsetsFacts RecFacts DecodeFacts SetFacts Runtime GenApi Fuel Heap HeapFacts Api GetFacts ApiInv ApiFacts SpecCost.
From Verif Require Import Access AccessFacts AccessApi SpecGo SpecSpend SpendFacts SpendGet SpendSet SpendMore SpendHostile.
From Coq Require Import ZifyBool.

(** The struct [o], whatever it holds: a slice header, and at most [e] entries in its map. *)
Definition any_struct (G : heap) (o : nat) (s : option slice) (e : nat) : Prop :=
  G !! Buf o = Some (Hdr s) /\ 0 <= hlen s /\
  exists r, G !! Ref o = Some (Ptr r) /\
    match r with None => True | Some t => exists M, G !! Table t = Some (Tbl M) /\ (length ((map_to_list M).*1) <= e)%nat end.

Lemma cwp_uvarint_loop_any G a n : forall pos i x s, cwp G (c_uvarint_loop n a pos i x s) (fun k _ G' => G' = G /\ (k <= n)%nat).
Proof.
  induction n as [|n IH]; intros pos i x s; cbn [c_uvarint_loop]; [apply cwp_ret; split; [reflexivity|lia]|].
  apply cwp_bind, cwp_load. intros w _. apply cwp_ret. destruct (_ <? 128).
  - destruct (_ || _); apply cwp_ret; (split; [reflexivity|lia]).
  - eapply cwp_mono; [apply IH|]. cbv beta. intros k r G' [-> H]. split; [reflexivity|lia].
Qed.
Lemma cwp_uvarint_any G s : cwp G (c_uvarint s) (fun k _ G' => G' = G /\ (k <= Z.to_nat (hlen s))%nat).
Proof. destruct s as [s|]; [apply cwp_uvarint_loop_any|apply cwp_ret; split; [reflexivity|cbn; lia]]. Qed.

Lemma from_len s i d : h_from s i = Ok d -> 0 <= hlen s -> 0 <= i <= hlen s /\ hlen d = hlen s - i.
Proof.
  unfold h_from. destruct s as [s|].
  - destruct (_ && _) eqn:E; [|discriminate]. intros H _. injection H as <-. cbn [hlen slen]. lia.
  - destruct (Z.eqb_spec i 0); [|discriminate]. intros H _. injection H as <-. cbn [hlen]. lia.
Qed.
Lemma from_res s i : (exists d, h_from s i = Ok d) \/ h_from s i = Panic.
Proof. unfold h_from. destruct s; (destruct (_ && _) || destruct (_ =? _)); eauto. Qed.
Lemma range_len s lo hi d : h_range s lo hi = Ok d -> hlen d = hi - lo /\ 0 <= hi - lo.
Proof.
  unfold h_range. destruct s as [s|]; (destruct (_ && _) eqn:E; [|discriminate]); intros H; injection H as <-; cbn [hlen slen]; lia.
Qed.

Lemma cwp_old_len_any G o s typ offset : G !! Buf o = Some (Hdr s) -> 0 <= hlen s ->
  cwp G (c_old_len o offset typ) (fun k r G' => G' = G /\ Z.of_nat k <= 1 + hlen s).
Proof.
  intros Hb Hl. unfold c_old_len.
  assert (Hread : forall K : Z * Z -> prog Z, (forall p, exists z, K p = ret z) ->
    cwp G (bind (load_slice (Buf o)) (fun buf => bind (Stop (h_from buf offset)) (fun b => bind (c_uvarint b) K)))
      (fun k r G' => G' = G /\ Z.of_nat k <= 1 + hlen s)).
  { intros K HK. apply cwp_bind, cwp_load. intros w Hw. rewrite Hb in Hw. injection Hw as <-. apply cwp_ret. cbn [as_slice].
    apply cwp_lift. destruct (h_from s offset) as [d| | |] eqn:E; [|split; [reflexivity|lia]..]. apply from_len in E as [E1 E2]; [|exact Hl].
    apply cwp_bind. eapply cwp_mono; [apply (cwp_uvarint_any G d)|]. cbv beta. intros k r G' [-> Hk].
    destruct r as [p| | |]; [destruct (HK p) as [z ->]; apply cwp_ret|..]; (split; [reflexivity|lia]). }
  destruct (_ =? _); [apply Hread; intros [? ?]; eauto|].
  destruct (_ =? _); [apply cwp_ret; split; [reflexivity|lia]|].
  destruct (_ =? _); [apply cwp_ret; split; [reflexivity|lia]|].
  destruct (_ =? _); [apply Hread; intros [? ?]; eauto|].
  apply cwp_stop. split; [reflexivity|lia].
Qed.

Lemma tame_copy_at s i v : 0 <= src_len v -> 0 <= hlen s -> tame bytes_only (Z.to_nat (src_cost v)) (c_copy s i v) (fun _ => 0 <= i <= hlen s).
Proof.
  intros Hv Hs. destruct (from_res s i) as [[d E]|E].
  - pose proof (from_len _ _ _ E Hs) as [Hi _]. eapply tame_mono; [apply (tame_copy s i v Hv)|reflexivity|auto|auto].
  - unfold c_copy. rewrite E. exact I.
Qed.

(** Putting a record at the end. *)
Lemma cwp_set_new_any grow n o f G s tb vl v : G !! Buf o = Some (Hdr s) -> 0 <= hlen s -> 0 <= src_len v -> zlen tb <= 10 ->
  cwp G (c_set_new grow n o f tb vl v) (fun k _ _ => Z.of_nat k <= 80 + 6 * hlen s + 3 * zlen vl + src_cost v).
Proof.
  intros Hb Hs Hv Ht. assert (Hc : 0 <= src_cost v) by (destruct v; cbn in *; unfold zlen; lia). pose proof (zlen_nonneg vl). pose proof (zlen_nonneg tb).
  assert (Hgrown : forall s0 v0, (if hlen s0 + src_len v0 <=? cap_of s0 then 0 else 1 + 2 * hlen s0) <= 1 + 2 * Z.max 0 (hlen s0)) by (intros; destruct (_ <=? _); lia).
  unfold c_set_new. apply cwp_bind. eapply cwp_mono; [apply (cwp_push grow o (Scratch tb) G s Hb Hs); cbn; lia|]. cbv beta. intros k6 r6 G6 (Hk6 & _ & Hr6).
  pose proof (Hgrown s (Scratch tb)) as Hg6. cbn [src_cost src_len] in *. destruct r6 as [u6| | |]; [|lia..]. destruct Hr6 as (s3 & Hb6 & Hs3 & _).
  apply cwp_bind, cwp_load. intros w3 Hw3. apply cwp_ret.
  eapply cwp_tame_bind; [apply tame_offsets_set|..].
  { intros k7 G7 Hk7 _. split_and!; lia. }
  cbv beta. intros k7 G7 z Hk7 HK7 _.
  assert (Hb7 : G7 !! Buf o = Some (Hdr s3)) by (apply HK7; [apply of_struct_buf|exact Hb6]).
  apply cwp_bind. eapply cwp_mono; [apply (cwp_push grow o (Scratch vl) G7 s3 Hb7); [lia|cbn; lia]|]. cbv beta. intros k8 r8 G8 (Hk8 & _ & Hr8).
  pose proof (Hgrown s3 (Scratch vl)) as Hg8. cbn [src_cost src_len] in *. destruct r8 as [u8| | |]; [|lia..]. destruct Hr8 as (s4 & Hb8 & Hs4 & _).
  eapply cwp_mono; [apply (cwp_push grow o v G8 s4 Hb8); [lia|exact Hv]|]. cbv beta. intros k9 r9 G9 (Hk9 & _).
  pose proof (Hgrown s4 v) as Hg9. lia.
Qed.

Lemma cwp_set_struct grow n o f typ G s e vl v : any_struct G o s e -> hlen s < 2 ^ 63 -> 0 <= src_len v ->
  cwp G (c_setSingle grow n o f typ vl v) (fun k _ _ => Z.of_nat k <= 100 + 15 * hlen s + 2 * Z.of_nat n + 8 * Z.of_nat e + 3 * zlen vl + src_cost v).
Proof.
  intros (Hb & Hs & rf & Href & Htab) Hlt Hv. assert (Hc : 0 <= src_cost v) by (destruct v; cbn in *; unfold zlen; lia). pose proof (zlen_nonneg vl).
  unfold c_setSingle. apply cwp_lift. destruct (put_uvarint _ _) as [tb| | |] eqn:Htb; [|lia..].
  assert (Hl10 : zlen tb <= 10) by (apply put_uvarint_len in Htb; unfold MaxVarintLen64 in Htb; unfold zlen; lia). pose proof (zlen_nonneg tb).
  apply cwp_bind. eapply cwp_mono; [apply cwp_get_any|]. cbv beta. intros k1 r1 G1 [Hk1 ->]. destruct r1 as [[offset ok]| | |]; [|lia..].
  destruct ok; [|eapply cwp_mono; [apply (cwp_set_new_any grow n o f G s tb vl v Hb Hs Hv Hl10)|]; cbv beta; intros; lia].
  apply cwp_bind. eapply cwp_mono; [apply (cwp_old_len_any G o s typ offset Hb Hs)|]. cbv beta. intros k2 r2 G2 [-> Hk2]. destruct r2 as [oldLen| | |]; [|lia..].
  assert (Hkeep : forall G' l w, kept bytes_only G G' -> G !! l = Some w -> ~ bytes_only l -> G' !! l = Some w) by (intros G' l w HK Hl N; exact (HK l w N Hl)).
  assert (Hbuf : ~ bytes_only (Buf o)) by (intros (a & j & H9); discriminate).
  destruct (oldLen =? zlen vl + src_len v).
  { apply cwp_bind, cwp_load. intros w1 Hw1. apply cwp_ret.
    eapply cwp_tame_bind; [apply tame_copy; cbn; lia|..].
    { intros k3 G3 H3 _. cbn [src_cost src_len] in *. split_and!; lia. }
    cbv beta. intros k3 G3 x H3 _ _. cbn [src_cost src_len] in *.
    apply cwp_bind, cwp_load. intros w2 Hw2. apply cwp_ret.
    eapply cwp_tame_bind; [apply tame_copy, Hv|..].
    { intros k4 G4 H4 _. split_and!; lia. }
    cbv beta. intros k4 G4 y H4 _ _. apply cwp_ret. lia. }
  remember (u64 (offset - u64 (zlen tb))) as fb eqn:Efb. remember (u64 (offset + u64 oldLen)) as fe eqn:Efe. clear Efb Efe.
  cbv zeta. apply cwp_bind, cwp_load. intros w1 Hw1. rewrite Hb in Hw1. injection Hw1 as <-. apply cwp_ret. cbn [as_slice].
  apply cwp_lift. destruct (h_from s fe) as [d| | |] eqn:Ed; [|lia..]. apply from_len in Ed as [Hfe Hd]; [|exact Hs].
  eapply cwp_tame_bind; [apply (tame_copy_at s fb (View d)); [cbn [src_len]; lia|exact Hs]|..].
  { intros k3 G3 Hk3 _. cbn [src_cost src_len] in *. split_and!; lia. }
  cbv beta. intros k3 G3 x Hk3 HK3 Hfb. cbn [src_cost src_len] in *.
  assert (Hb3 : G3 !! Buf o = Some (Hdr s)) by (exact (HK3 _ _ Hbuf Hb)).
  apply cwp_bind, cwp_load. intros w2 Hw2. rewrite Hb3 in Hw2. injection Hw2 as <-. apply cwp_ret. cbn [as_slice].
  apply cwp_lift. destruct (h_range s 0 _) as [s2| | |] eqn:E2; [|lia..]. apply range_len in E2 as [Hs2 _].
  assert (Hl2 : hlen s2 = hlen s - (fe - fb)).
  { rewrite Hs2, Z.sub_0_r. unfold u64. rewrite Zminus_mod_idemp_r. apply Z.mod_small. pows. lia. }
  clear Hs2. remember (u64 (fe - fb)) as rb eqn:Erb. clear Erb.
  apply cwp_bind, cwp_store. intros _.
  eapply cwp_tame_bind; [apply tame_adjust_array|..].
  { intros k4 G4 Hk4 _. split_and!; lia. }
  cbv beta. intros k4 G4 y Hk4 HK4 _.
  assert (Hb4 : G4 !! Buf o = Some (Hdr s2)) by (apply HK4; [intros [i H9]; discriminate|apply lookup_insert]).
  assert (Hmap : cwp G4 (c_adjust_map n o fe rb) (fun k _ G' => Z.of_nat k <= 2 + 8 * Z.of_nat e /\ G' !! Buf o = Some (Hdr s2))).
  { assert (Hk4' : forall l w0, G !! l = Some w0 -> ~ bytes_only l -> l <> Buf o -> ~ offs_of o l -> G4 !! l = Some w0).
    { intros l w0 Hl N1 N2 N3. apply HK4; [exact N3|]. rewrite lookup_insert_ne by congruence. apply HK3; assumption. }
    assert (Hr4 : G4 !! Ref o = Some (Ptr rf)) by (apply Hk4'; [exact Href|intros (a & j & H9); discriminate|discriminate|intros [i H9]; discriminate]).
    unfold c_adjust_map. apply cwp_bind, cwp_load. intros w3 Hw3. apply cwp_ret. rewrite Hr4 in Hw3. injection Hw3 as <-. cbn [as_ref].
    destruct rf as [t|]; [|apply cwp_ret; split; [lia|exact Hb4]]. destruct Htab as (M & HM & HMs).
    apply Hk4' in HM; [|intros (a & j & H9); discriminate|discriminate|intros [i H9]; discriminate].
    apply cwp_bind, cwp_load. intros w4 Hw4. rewrite HM in Hw4. injection Hw4 as <-.
    apply cwp_ret. cbn [as_map]. eapply cwp_mono; [apply (cwp_tame _ _ _ _ _ (tame_adjust_keys n o t _ _ _))|]. cbv beta. intros k5 r5 G5 (Hk5 & HK5 & _).
    split; [lia|]. apply HK5; [apply of_struct_buf|exact Hb4]. }
  apply cwp_bind. eapply cwp_mono; [exact Hmap|]. cbv beta. intros k5 r5 G5 [Hk5 Hb5]. destruct r5 as [u| | |]; [|lia..].
  eapply cwp_mono; [apply (cwp_set_new_any grow n o f G5 s2 tb vl v Hb5); [lia|exact Hv|exact Hl10]|]. cbv beta. intros k6 r6 G6 Hk6. lia.
Qed.

Lemma cwp_append_struct grow n o f typ G s vl v : G !! Buf o = Some (Hdr s) -> 0 <= hlen s -> 0 <= src_len v ->
  cwp G (c_appendSingle grow n o f typ vl v) (fun k _ _ => Z.of_nat k <= 90 + 6 * hlen s + 3 * zlen vl + src_cost v).
Proof.
  intros Hb Hs Hv. assert (Hc : 0 <= src_cost v) by (destruct v; cbn in *; unfold zlen; lia). pose proof (zlen_nonneg vl).
  unfold c_appendSingle. apply cwp_lift. destruct (put_uvarint _ _) as [tb| | |] eqn:Htb; [|lia..].
  assert (Hl10 : zlen tb <= 10) by (apply put_uvarint_len in Htb; unfold MaxVarintLen64 in Htb; unfold zlen; lia). pose proof (zlen_nonneg tb).
  assert (Hgrown : forall s0 v0, (if hlen s0 + src_len v0 <=? cap_of s0 then 0 else 1 + 2 * hlen s0) <= 1 + 2 * Z.max 0 (hlen s0)) by (intros; destruct (_ <=? _); lia).
  apply cwp_bind. eapply cwp_mono; [apply (cwp_push grow o (Scratch tb) G s Hb Hs); cbn; lia|]. cbv beta. intros k6 r6 G6 (Hk6 & _ & Hr6).
  pose proof (Hgrown s (Scratch tb)) as Hg6. cbn [src_cost src_len] in *. destruct r6 as [u6| | |]; [|lia..]. destruct Hr6 as (s3 & Hb6 & Hs3 & _).
  apply cwp_bind, cwp_load. intros w3 Hw3. apply cwp_ret.
  apply cwp_bind. eapply cwp_mono; [apply cwp_get_any|]. cbv beta. intros k1 r1 G1 [Hk1 ->]. destruct r1 as [[offset ok]| | |]; [|lia..].
  eapply (cwp_tame_bind (of_struct o) 7 _ _ _ (fun _ => True)); [destruct ok; [exact I|apply tame_offsets_set]|..].
  { intros k7 G7 Hk7 _. split_and!; lia. }
  cbv beta. intros k7 G7 z Hk7 HK7 _.
  assert (Hb7 : G7 !! Buf o = Some (Hdr s3)) by (apply HK7; [apply of_struct_buf|exact Hb6]).
  apply cwp_bind. eapply cwp_mono; [apply (cwp_push grow o (Scratch vl) G7 s3 Hb7); [lia|cbn; lia]|]. cbv beta. intros k8 r8 G8 (Hk8 & _ & Hr8).
  pose proof (Hgrown s3 (Scratch vl)) as Hg8. cbn [src_cost src_len] in *. destruct r8 as [u8| | |]; [|lia..]. destruct Hr8 as (s4 & Hb8 & Hs4 & _).
  eapply cwp_mono; [apply (cwp_push grow o v G8 s4 Hb8); [lia|exact Hv]|]. cbv beta. intros k9 r9 G9 (Hk9 & _).
  pose proof (Hgrown s4 v) as Hg9. lia.
Qed.
