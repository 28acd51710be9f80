(** * The cost of getters, Decode and iterators *)
From Verif Require Import GoBase Spec VarintFacts OffsetsFacts RecFacts DecodeFacts Heap HeapFacts Api GetFacts ApiInv ApiFacts.
From Verif Require Import Access AccessFacts AccessApi SpecGo SpecSpend SpendFacts.
From Coq Require Import ZifyBool.

(** How many bytes Uvarint looks at. *)
Fixpoint ulen (bs : list Z) : nat :=
  match bs with [] => 0%nat | b :: bs => if b <? 128 then 1%nat else S (ulen bs) end.
Lemma ulen_varint v vb r : is_varint v vb -> ulen (vb ++ r) = length vb.
Proof.
  intros (init & lst & -> & Hi & Hl & _). rewrite <- app_assoc, app_length. cbn [app length]. induction init as [|b init IH]; cbn [app ulen length].
  - replace (lst <? 128) with true by lia. reflexivity.
  - apply Forall_cons in Hi as [Hb Hi]. replace (b <? 128) with false by lia. rewrite IH by exact Hi. reflexivity.
Qed.
Lemma is_varint_ten v vb : is_varint v vb -> (length vb <= 10)%nat.
Proof. intros (init & lst & -> & _ & _ & H & _). exact H. Qed.
Lemma ulen_all bs : (ulen bs <= length bs)%nat.
Proof. induction bs as [|b bs IH]; cbn; [lia|]. destruct (_ <? _); lia. Qed.

Lemma cwp_uvarint_loop G a bs : forall pos i x s,
  (forall j z, bs !! j = Some z -> G !! Byte a (pos + Z.of_nat j) = Some (Num z)) ->
  cwp G (c_uvarint_loop (length bs) a pos i x s) (fun k r G' => G' = G /\ r = Ok (uvarint_loop bs i x s) /\ (k <= ulen bs)%nat).
Proof.
  induction bs as [|b bs IH]; intros pos i x s Hb; cbn [length c_uvarint_loop].
  - apply cwp_ret. auto.
  - apply cwp_bind, cwp_load. intros w Hw. pose proof (Hb 0%nat b eq_refl) as H0. rewrite Z.add_0_r in H0. rewrite H0 in Hw. injection Hw as <-.
    apply cwp_ret. cbn [as_num uvarint_loop ulen]. destruct (b <? 128).
    + destruct ((9 <? i) || ((i =? 9) && (1 <? b))); apply cwp_ret; split_and!; auto.
    + eapply cwp_mono; [apply IH|].
      * intros j z Hj. replace (pos + 1 + Z.of_nat j) with (pos + Z.of_nat (S j)) by lia. apply Hb. exact Hj.
      * cbv beta. intros k r G' (-> & -> & Hk). split_and!; auto. lia.
Qed.
Lemma cwp_uvarint G s bs : bytes_at G s bs ->
  cwp G (c_uvarint s) (fun k r G' => G' = G /\ r = Ok (uvarint bs) /\ (k <= ulen bs)%nat).
Proof.
  intros Hb. destruct s as [s|]; cbn [c_uvarint bytes_at] in *.
  - destruct Hb as [Hl Hb]. replace (Z.to_nat (slen s)) with (length bs) by (unfold zlen in Hl; lia). apply cwp_uvarint_loop, Hb.
  - subst bs. apply cwp_ret. auto.
Qed.
Lemma cwp_varint G s bs : bytes_at G s bs ->
  cwp G (c_varint s) (fun k r G' => G' = G /\ r = Ok (varint bs) /\ (k <= ulen bs)%nat).
Proof.
  intros Hb. unfold c_varint, varint. apply cwp_bind. eapply cwp_mono; [apply cwp_uvarint, Hb|]. cbv beta. intros k r G' (-> & -> & Hk).
  destruct (uvarint bs) as [ux n]. apply cwp_ret. split; [reflexivity|]. split; [reflexivity|]. lia.
Qed.
Lemma bytes_from G s bs i : bytes_at G s bs -> 0 <= i <= zlen bs -> exists d, h_from s i = Ok d /\ bytes_at G d (drop (Z.to_nat i) bs).
Proof.
  intros Hb Hi. destruct s as [s|]; cbn [bytes_at h_from] in *.
  - destruct Hb as [Hl Hb]. replace ((0 <=? i) && (i <=? slen s)) with true by lia. eexists. split; [reflexivity|]. cbn [slen sarr soff]. split.
    + unfold zlen in *. rewrite drop_length. cbn [slen]. lia.
    + intros j z Hj. rewrite lookup_drop in Hj. apply Hb in Hj. replace (soff s + Z.of_nat (Z.to_nat i + j)) with (soff s + i + Z.of_nat j) in Hj by lia. cbn [sarr soff]. exact Hj.
  - subst bs. unfold zlen in Hi. cbn in Hi. replace (i =? 0) with true by lia. exists None. split; [reflexivity|]. cbn. rewrite drop_nil. reflexivity.
Qed.
Lemma bytes_len G s bs : bytes_at G s bs -> hlen s = zlen bs.
Proof. destruct s as [s|]; cbn; [intros [H _]; auto|intros ->; reflexivity]. Qed.
Lemma bytes_kept W G G' s bs : kept W G G' -> (forall a j, ~ W (Byte a j)) -> bytes_at G s bs -> bytes_at G' s bs.
Proof.
  intros Hk Hw. destruct s as [s|]; cbn; [|auto]. intros [H1 H2]. split; [exact H1|]. intros j z Hj. apply Hk; [apply Hw|]. auto.
Qed.
Lemma of_struct_bytes o a j : ~ of_struct o (Byte a j).
Proof. intros [[i H]|[H|[t H]]]; discriminate. Qed.
Lemma of_struct_buf o o2 : ~ of_struct o (Buf o2).
Proof. intros [[i H]|[H|[t H]]]; discriminate. Qed.
Lemma nothing_not l : ~ nothing l. Proof. intros []. Qed.

Lemma cwp_offsets_get G n o m f : stores G o m -> zlen (oa (moff m)) = Z.of_nat n ->
  cwp G (c_offsets_get n o f) (fun k r G' => G' = G /\ r = offsets_get (moff m) f /\ (k <= 3)%nat).
Proof.
  intros (_ & HO & HM) Hn. unfold c_offsets_get, in_array, offsets_get, arr_get. rewrite <- Hn.
  destruct ((0 <=? f) && (f <? zlen (oa (moff m)))) eqn:E; [|apply cwp_stop; split_and!; [reflexivity|reflexivity|lia]].
  assert (is_Some (oa (moff m) !! Z.to_nat f)) as [x Hx] by (apply lookup_lt_is_Some; unfold zlen in E; lia). rewrite Hx. cbn [rbind].
  apply cwp_bind, cwp_load. intros w Hw. rewrite (HO _ _ Hx) in Hw. injection Hw as <-. apply cwp_ret. cbn [as_num].
  destruct (negb (x =? offsetInMap)); [apply cwp_ret; split_and!; [reflexivity|reflexivity|lia]|].
  apply cwp_bind, cwp_load. intros w Hw. destruct (om (moff m)) as [t|].
  - destruct HM as (l & H1 & H2). rewrite H1 in Hw. injection Hw as <-. apply cwp_ret. cbn [as_ref].
    apply cwp_bind, cwp_load. intros w Hw. rewrite H2 in Hw. injection Hw as <-. apply cwp_ret. cbn [as_map]. apply cwp_ret. split_and!; [reflexivity|reflexivity|lia].
  - rewrite HM in Hw. injection Hw as <-. apply cwp_ret. cbn [as_ref]. apply cwp_ret. split_and!; [reflexivity|reflexivity|lia].
Qed.

(** ** Getters *)

Lemma ulen_payload w pb r : payload_enc w pb -> wire_type w = 0 \/ wire_type w = 2 -> (ulen (pb ++ r) <= 10)%nat.
Proof.
  destruct w as [v|v|bs|v]; cbn [payload_enc wire_type]; intros Hp Hw; [|lia| |lia].
  - rewrite (ulen_varint _ _ _ Hp). eapply is_varint_ten, Hp.
  - destruct Hp as (lb & -> & Hv & _). rewrite <- app_assoc, (ulen_varint _ _ _ Hv). eapply is_varint_ten, Hv.
Qed.

Lemma cwp_read G a n : forall pos, cwp G (c_read a pos n) (fun k r G' => G' = G /\ (k <= n)%nat /\ match r with Ok l => length l = n | _ => True end).
Proof.
  induction n as [|n IH]; intros pos; cbn [c_read].
  - apply cwp_ret. auto.
  - apply cwp_bind, cwp_load. intros w _. apply cwp_ret. apply cwp_bind. eapply cwp_mono; [apply IH|]. cbv beta. intros k r G' (-> & Hk & Hr).
    destruct r as [l| | |]; [apply cwp_ret; cbn [length]; rewrite Hr|..]; (split_and!; [reflexivity|lia|auto]).
Qed.
Lemma cwp_bytes G s n : cwp G (c_bytes s n) (fun k r G' => G' = G /\ (k <= Z.to_nat n)%nat /\ match r with Ok l => (length l <= Z.to_nat n)%nat | _ => True end).
Proof.
  destruct s as [s|]; cbn [c_bytes]; [|apply cwp_ret; cbn; split_and!; [reflexivity|lia|lia]].
  eapply cwp_mono; [apply cwp_read|]. cbv beta. intros k r G' (H1 & H2 & H3). split_and!; auto. destruct r; auto. lia.
Qed.
Lemma cwp_fixed G s x w (k : list Z -> res Z) : 0 <= x -> 0 <= w ->
  cwp G (let! b := Stop (h_range s x (u64 (x + w))) in
    let! bs := c_bytes b (hlen b) in
    let! x := Stop (k bs) in ret (HVal (VNum x))) (fun k2 r G' => G' = G /\ (k2 <= Z.to_nat w)%nat).
Proof.
  intros Hx Hw. apply cwp_lift. destruct (h_range s x (u64 (x + w))) as [b| | |] eqn:E; [|split; [reflexivity|lia]..].
  assert (Hl : hlen b <= w).
  { unfold h_range in E. destruct s as [s|]; [|destruct (_ && _); [injection E as <-; cbn; lia|discriminate]].
    destruct (_ && _) eqn:E2; [|discriminate]. injection E as <-. cbn [hlen slen]. assert (u64 (x + w) <= x + w) by (apply Z.mod_le; lia). lia. }
  apply cwp_bind. eapply cwp_mono; [apply cwp_bytes|]. cbv beta. intros k2 r2 G2 (H1 & H2 & H3).
  destruct r2 as [bs| | |]; [|split; [exact H1|lia]..]. apply cwp_lift.
  destruct (k bs); [apply cwp_ret; rewrite Nat.add_0_r|rewrite Nat.add_0_r..]; (split; [exact H1|lia]).
Qed.

(** The offset is there and a value of this type is at it. *)
Lemma cwp_get_some G T n o f m l1 w pb r :
  stores G o m -> zlen (oa (moff m)) = Z.of_nat n -> offsets_get (moff m) f = Ok (zlen l1, true) ->
  mbuf m = l1 ++ pb ++ r -> payload_enc w pb -> conforms T w ->
  cwp G (c_get T n o f) (fun k _ G' => G' = G /\ (k <= 14)%nat).
Proof.
  intros HS Hn Ho Hm Hp [Hc _]. pose proof HS as [(s & Hb & Hs) HS2]. rewrite Hm in Hs.
  assert (Hl : 0 <= zlen l1 <= zlen (l1 ++ pb ++ r)) by (unfold zlen; rewrite app_length; lia).
  destruct (bytes_from _ _ _ _ Hs Hl) as (d & Hd & Hdb). rewrite drop_app_ge in Hdb by (unfold zlen; lia).
  replace (Z.to_nat (zlen l1) - length l1)%nat with 0%nat in Hdb by (unfold zlen; lia). rewrite drop_0 in Hdb.
  assert (Hwith : forall A (dflt : A) k (Q : nat -> res A -> heap -> Prop),
    (forall k1, (k1 <= 3)%nat -> cwp G (k (zlen l1)) (fun k2 r G' => Q (k1 + k2)%nat r G')) -> cwp G (c_with_offset n o f dflt k) Q).
  { intros A dflt k Q HQ. unfold c_with_offset. apply cwp_bind. eapply cwp_mono; [apply (cwp_offsets_get _ _ _ _ f HS Hn)|]. cbv beta.
    intros k1 r1 G1 (-> & -> & Hk1). rewrite Ho. apply HQ, Hk1. }
  assert (Hload : forall A (k : option slice -> prog A) (Q : nat -> res A -> heap -> Prop),
    cwp G (k s) (fun k2 r G' => Q (S k2) r G') -> cwp G (bind (load_slice (Buf o)) k) Q).
  { intros A k Q HQ. apply cwp_bind, cwp_load. intros w0 Hw0. rewrite Hb in Hw0. injection Hw0 as <-. apply cwp_ret. cbn [as_slice]. exact HQ. }
  destruct w as [v|v|bs|v]; cbn [wire_type] in Hc.
  - assert (Hu := ulen_payload _ _ r Hp (or_introl eq_refl)).
    assert (HV : forall dflt k, cwp G (c_varint_at n o f dflt k) (fun k _ G' => G' = G /\ (k <= 14)%nat)).
    { intros dflt k. unfold c_varint_at. apply Hwith. intros k1 Hk1. apply Hload, cwp_lift. rewrite Hd. apply cwp_bind. eapply cwp_mono; [apply cwp_uvarint, Hdb|].
      cbv beta. intros k2 r2 G2 (-> & -> & Hk2). destruct (uvarint _). apply cwp_ret. split; [reflexivity|]. lia. }
    assert (HZ : forall k, cwp G (c_zigzag_at n o f k) (fun k _ G' => G' = G /\ (k <= 14)%nat)).
    { intros k. unfold c_zigzag_at. apply Hwith. intros k1 Hk1. apply Hload, cwp_lift. rewrite Hd. apply cwp_bind. eapply cwp_mono; [apply cwp_varint, Hdb|].
      cbv beta. intros k2 r2 G2 (-> & -> & Hk2). destruct (varint _). apply cwp_ret. split; [reflexivity|]. lia. }
    destruct T; try discriminate Hc; cbn [c_get]; auto.
  - assert (HF : forall k, cwp G (c_fixed_at n o f 8 k) (fun k _ G' => G' = G /\ (k <= 14)%nat)).
    { intros k. unfold c_fixed_at. apply Hwith. intros k1 Hk1. apply Hload. eapply cwp_mono; [apply (cwp_fixed G s (zlen l1) 8 k); lia|]. cbv beta. intros k2 r2 G2 [-> Hk2]. split; [reflexivity|]. lia. }
    destruct T; try discriminate Hc; cbn [c_get]; auto.
  - assert (Hu := ulen_payload _ _ r Hp (or_intror eq_refl)).
    assert (HV : cwp G (c_slice_at n o f) (fun k _ G' => G' = G /\ (k <= 14)%nat)).
    { unfold c_slice_at. apply Hwith. intros k1 Hk1. apply Hload, cwp_lift. rewrite Hd. apply cwp_bind. eapply cwp_mono; [apply cwp_uvarint, Hdb|].
      cbv beta. intros k2 r2 G2 (-> & -> & Hk2). destruct (uvarint _). apply cwp_lift.
      destruct (h_range _ _ _); [apply cwp_ret|..]; (split; [reflexivity|lia]). }
    destruct T; try discriminate Hc; cbn [c_get]; apply cwp_bind; (eapply cwp_mono; [exact HV|]); cbv beta; intros k2 r2 G2 [-> Hk2];
      (destruct r2; [apply cwp_ret|..]; (split; [reflexivity|lia])).
  - assert (HF : forall k, cwp G (c_fixed_at n o f 4 k) (fun k _ G' => G' = G /\ (k <= 14)%nat)).
    { intros k. unfold c_fixed_at. apply Hwith. intros k1 Hk1. apply Hload. eapply cwp_mono; [apply (cwp_fixed G s (zlen l1) 4 k); lia|]. cbv beta. intros k2 r2 G2 [-> Hk2]. split; [reflexivity|]. lia. }
    destruct T; try discriminate Hc; cbn [c_get]; auto.
Qed.
Lemma cwp_get_none G T n o f m :
  stores G o m -> zlen (oa (moff m)) = Z.of_nat n -> offsets_get (moff m) f = Ok (0, false) ->
  cwp G (c_get T n o f) (fun k _ G' => G' = G /\ (k <= 3)%nat).
Proof.
  intros HS Hn Ho.
  assert (Hwith : forall A (dflt : A) k, cwp G (c_with_offset n o f dflt k) (fun k _ G' => G' = G /\ (k <= 3)%nat)).
  { intros A dflt k. unfold c_with_offset. apply cwp_bind. eapply cwp_mono; [apply (cwp_offsets_get _ _ _ _ f HS Hn)|]. cbv beta.
    intros k1 r1 G1 (-> & -> & Hk1). rewrite Ho. apply cwp_ret. split; [reflexivity|lia]. }
  destruct T; cbn [c_get]; unfold c_varint_at, c_zigzag_at, c_fixed_at, c_slice_at; auto; apply cwp_bind;
    (eapply cwp_mono; [apply Hwith|]); cbv beta; intros k2 r2 G2 [-> Hk2]; (destruct r2; [apply cwp_ret|..]; (split; [reflexivity|lia])).
Qed.
