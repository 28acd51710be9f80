(** * Setters whose argument is a view of the message itself *)
From Verif Require Import Heap HeapApi Core HeapFacts HeapSet HeapExec VarintFacts RecFacts.
From Coq Require Import ZifyBool.

(** The cells [lo, hi) of a slice, relative to its start. *)
Definition in_part (s : option slice) (lo hi : Z) (a : nat) (j : Z) : Prop :=
  match s with None => False | Some s => a = sarr s /\ soff s + lo <= j < soff s + hi end.

Lemma h_copy_part σ s i src σ' n : swf σ s -> h_copy σ s i src = Ok (σ', n) ->
  only_changes σ σ' (in_part s i (i + zlen src)) (fun _ => False) /\
  (match s with None => True | Some s => 0 <= i <= slen s end).
Proof.
  intros Hs. unfold h_copy. destruct s as [s|]; cbn [h_from rbind].
  - destruct (Z.leb_spec 0 i), (Z.leb_spec i (slen s)); cbn [andb rbind]; try done.
    destruct Hs as (l & Hl & H1 & H2 & H3). cbn [slen sarr soff]. intros [= <- <-].
    set (k := Z.min (slen s - i) (zlen src)).
    assert (Hn : 0 <= k <= slen s - i /\ k <= zlen src) by (unfold k, zlen in *; lia).
    assert (Hlen : length (take (Z.to_nat k) src) = Z.to_nat k) by (rewrite take_length; unfold zlen in *; lia).
    split; [|lia].
    eapply only_weaken; [apply write_frame| |done].
    + lia.
    + unfold arr_of. rewrite Hl. cbn. unfold zlen in *. lia.
    + intros a j _ [-> Hj]. cbn. unfold zlen in *. lia.
  - destruct (i =? 0); cbn; [|done]. intros [= <- <-]. split; [apply only_refl|done].
Qed.

(** The argument may alias the buffer where the call does not disturb it: when
    the old value has the same size, outside the length prefix; otherwise before
    the record that is cut out. *)
Lemma hsetSingle_refines_alias grow σ h f typ valLen v :
  hwf σ h ->
  src_apart σ v (in_spare (h_buf h)) ->
  (forall off n tag, offsets_get (hoffs σ h) f = Ok (off, true) ->
     old_len (sbytes σ (h_buf h)) off typ = Ok n -> put_uvarint MaxVarintLen64 (make_tag f typ) = Ok tag ->
     if n =? zlen valLen + src_len v
     then src_apart σ v (in_part (h_buf h) off (off + zlen valLen))
     else zlen tag <= off /\ 0 <= n /\ off + n < 2 ^ 64 /\ hlen (h_buf h) < 2 ^ 64 /\
          src_apart σ v (fun a j => in_window (h_buf h) a j /\ exists s, h_buf h = Some s /\ soff s + (off - zlen tag) <= j)) ->
  refines_msg (setSingle (sbytes σ (h_buf h)) (hoffs σ h) f typ valLen (src_bytes σ v))
              (hsetSingle grow σ h f typ valLen v).
Proof.
  intros Hwf Hv Hcond. unfold hsetSingle, setSingle, setSingle_ord.
  destruct (put_uvarint_res MaxVarintLen64 (make_tag f typ)) as [->|(tag & Etag & Htag)]; [done|].
  rewrite Etag, !rbind_Ok.
  destruct (offsets_get_res (hoffs σ h) f) as [->|[[off ok] Eg]]; [done|]. rewrite Eg, !rbind_Ok.
  destruct ok; [|apply hset_new_refines; done].
  pose proof (get_buf_some _ _ _ _ Hwf Eg) as Hnn.
  destruct (old_len_res (sbytes σ (h_buf h)) off typ) as [->|[n En]]; [done|]. rewrite En, !rbind_Ok.
  specialize (Hcond _ _ _ Eg En Etag).
  rewrite (src_len_ok _ _ _ Hv).
  pose proof Hwf as (Hs & Hm & Hz).
  destruct (n =? _).
  - pose proof (h_copy_ok σ (h_buf h) off valLen Hs) as Hc1.
    destruct (copy_at _ _ _) as [[b1 n1]| | |]; try done; [|rewrite Hc1; done]. rewrite rbind_Ok.
    destruct Hc1 as (σ1 & Ec & Hb1 & Hm1 & Hf1). rewrite Ec, rbind_Ok.
    assert (Hwf1 : hwf σ1 h) by (eapply hwf_copy; eauto).
    destruct (h_copy_part _ _ _ _ _ _ Hs Ec) as [Hf1' _].
    rewrite (src_frame _ _ _ _ _ Hf1' Hcond).
    pose proof (h_copy_ok σ1 (h_buf h) (u64 (off + u64 n1)) (src_bytes σ v) (proj1 Hwf1)) as Hc2.
    rewrite Hb1 in Hc2.
    destruct (copy_at _ _ _) as [[b2 n2]| | |]; try done; [|rewrite Hc2; done]. rewrite rbind_Ok.
    destruct Hc2 as (σ2 & -> & Hb2 & Hm2 & Hf2). rewrite rbind_Ok.
    eexists _, _. split; [done|]. split; [done|]. unfold hoffs. rewrite Hm2, Hm1. done.
  - destruct Hcond as (Ht & Hn & Hon & Hhl & Hvw).
    pose proof (zlen_nonneg tag) as Htl.
    assert (Hfb : u64 (off - u64 (zlen tag)) = off - zlen tag).
    { rewrite (u64_small (zlen tag)), u64_small; pows; lia. }
    assert (Hfe : u64 (off + u64 n) = off + n).
    { rewrite (u64_small n), u64_small; pows; lia. }
    set (fieldBegin := u64 (off - u64 (zlen tag))) in *. set (fieldEnd := u64 (off + u64 n)) in *.
    pose proof (h_from_ok σ (h_buf h) fieldEnd Hs) as H1.
    destruct (slice_from _ _) as [src1| | |]; try done; [|rewrite H1; done]. rewrite rbind_Ok.
    destruct H1 as (s & E1 & Hsb & Hss & _). rewrite E1, rbind_Ok.
    pose proof (h_copy_ok σ (h_buf h) fieldBegin (sbytes σ s) Hs) as H2. rewrite Hsb in *.
    destruct (copy_at _ _ _) as [[b1 n1]| | |] eqn:Ecopy; try done; [|rewrite H2; done]. rewrite rbind_Ok.
    destruct H2 as (σ1 & E2 & Hb1 & Hm1 & Hf1). rewrite E2, rbind_Ok.
    assert (Hwf1 : hwf σ1 h) by (eapply hwf_copy; eauto).
    assert (zlen b1 = hlen (h_buf h)) as ->.
    { rewrite <- Hb1. apply sbytes_length, Hwf1. }
    unfold slice_to.
    pose proof (h_range_ok σ1 (h_buf h) 0 (u64 (hlen (h_buf h) - u64 (fieldEnd - fieldBegin))) (proj1 Hwf1)) as H3.
    rewrite Hb1 in H3.
    destruct (slice_range _ _ _) as [b2| | |]; try done; [|rewrite H3; done]. rewrite rbind_Ok.
    destruct H3 as (buf & E3 & Hb2 & Hs2 & Hsub2 & _). rewrite E3, rbind_Ok.
    assert (Hoff : hoffs σ1 h = hoffs σ h) by (unfold hoffs; rewrite Hm1; done). rewrite Hoff.
    destruct (adjust_map_keys_res fieldEnd (u64 (fieldEnd - fieldBegin))
       (map_keys (mkOffsets (adjust_array (oa (hoffs σ h)) fieldEnd (u64 (fieldEnd - fieldBegin))) (om (hoffs σ h))))
       (mkOffsets (adjust_array (oa (hoffs σ h)) fieldEnd (u64 (fieldEnd - fieldBegin))) (om (hoffs σ h))))
       as [->|(o & E4 & _)]; [done|]. rewrite E4, !rbind_Ok.
    destruct (put_offs σ1 (put_buf h buf) o) as [σ2 h2] eqn:E5.
    rewrite <- Hoff in E4. rewrite <- Hsb in E2.
    destruct (hcut_ok _ _ _ _ _ _ _ _ _ _ _ _ _ Hwf Hnn E1 E2 E3 E4 E5) as (A & B & C & D & E & F).
    assert (Hsb2 : sbytes σ2 (h_buf h2) = b2).
    { rewrite D. rewrite <- Hb2. destruct buf; [|done]. cbn. unfold arr_of. rewrite E. done. }
    assert (Hf1p : only_changes σ σ1 (fun a j => in_window (h_buf h) a j /\ exists s, h_buf h = Some s /\ soff s + (off - zlen tag) <= j) (fun _ => False)).
    { destruct (h_copy_part _ _ _ _ _ _ Hs E2) as [Hp _]. 
      destruct Hf1 as (F1 & F2 & F3 & F4). destruct Hp as (G1 & G2 & G3 & G4). split_and!; try done.
      intros a j Ha Hnot.
      destruct (h_buf h) as [b|] eqn:Eb; [|done].
      destruct (decide (a = sarr b /\ soff b <= j < soff b + slen b)) as [[-> Hj]|Hn1].
      - apply G2; [done|]. intros [_ Hj2]. apply Hnot. split; [apply (in_bytes_window σ); [done|]; cbn; lia|].
        exists b. split; [done|]. lia.
      - apply F2; [done|]. intros Hj. apply Hn1. exact Hj. }
    assert (Hv2 : src_apart σ2 v (in_spare (h_buf h2)) /\ src_bytes σ2 v = src_bytes σ v).
    { assert (Hb12 : src_bytes σ1 v = src_bytes σ v) by (eapply src_frame; [apply Hf1p|apply Hvw]).
      assert (Hb22 : src_bytes σ2 v = src_bytes σ1 v).
      { destruct v as [|sv]; [done|]. cbn. destruct sv; [|done]. cbn. unfold arr_of. rewrite E. done. }
      split; [|congruence].
      destruct v as [|sv]; [done|]. destruct Hvw as [Hsv Hvn]. split.
      - eapply swf_frame in Hsv; [|apply Hf1p]. unfold swf in *. rewrite E. done.
      - intros a j Hj Hsp. apply (Hvn a j Hj). rewrite D in Hsp.
        destruct (h_buf h) as [b|] eqn:Eb; [|done]. cbn [h_from h_range hlen] in *.
        destruct (Z.leb_spec 0 fieldEnd), (Z.leb_spec fieldEnd (slen b)); cbn [andb] in E1; try done.
        assert (Hu : u64 (slen b - u64 (fieldEnd - fieldBegin)) = slen b - (fieldEnd - fieldBegin)).
        { destruct Hs as (l & Hl & HH). rewrite (u64_small (fieldEnd - fieldBegin)) by (pows; lia).
          apply u64_small. pows. lia. }
        rewrite Hu in E3. destruct Hs as (l & Hl & HH).
        rewrite !(proj2 (Z.leb_le _ _)) in E3 by lia. cbn [andb] in E3. injection E3 as <-.
        cbn in Hsp. destruct Hsp as [-> Hsp]. split; [cbn; lia|]. exists b. split; [done|]. lia. }
    destruct Hv2 as [Hv2 Hv2e].
    pose proof (hset_new_refines grow σ2 h2 f tag valLen v A Htag Hv2) as H.
    rewrite Hsb2, C, Hv2e in H. exact H.
Qed.
