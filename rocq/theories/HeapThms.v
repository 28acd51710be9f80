(** * Setters and views, on messages produced by histories *)
From Verif Require Import Heap HeapApi Core Core2 Core4 HeapFacts HeapSet HeapExec HeapAlias HeapView VarintFacts OffsetsFacts RecFacts
  GetFacts Fuel IterFacts ApiInv SetFacts ApiFacts.
From Coq Require Import ZifyBool.

Lemma last_record_concrete f m b1 tb lb x b2 cs :
  last_bytes_record f m b1 tb lb x b2 -> Forall cvalid cs -> m = flat cs -> zlen m < 2 ^ 63 ->
  exists pre post, cs = pre ++ mkCrec f (WBytes x) tb (lb ++ x) :: post /\ flat pre = b1 /\ flat post = b2 /\
    occ f (map crecord post) = [].
Proof.
  intros (Hm & (rs1 & H1) & Ht & Hl & Hx & (rs2 & H2 & Hocc)) Hv Hcs Hlen.
  apply wire_concrete in H1 as (pre & Hpre & <- & <-). apply wire_concrete in H2 as (post & Hpost & <- & <-).
  assert (Hc : cvalid (mkCrec f (WBytes x) tb (lb ++ x))).
  { split; [exact Ht|]. exists lb. auto. }
  exists pre, post. split_and!; try done.
  apply flat_det; try done.
  - apply Forall_app. split; [done|]. constructor; done.
  - rewrite <- Hcs. done.
  - rewrite <- Hcs, Hm, flat_app. cbn [flat]. unfold cbytes. cbn [ct cp]. rewrite <- !app_assoc. done.
Qed.

Lemma last_record_indexed reps o f m b1 tb lb x b2 cs :
  last_bytes_record f m b1 tb lb x b2 -> Forall cvalid cs -> m = flat cs -> zlen m < 2 ^ 63 ->
  indexes reps o cs -> in_range o f -> is_repeated reps f = false ->
  ofun o f = Some (zlen (b1 ++ tb)).
Proof.
  intros Hr Hv Hm Hlen Hi Hin Hrep.
  destruct (last_record_concrete _ _ _ _ _ _ _ _ Hr Hv Hm Hlen) as (pre & post & -> & <- & <- & Hocc).
  rewrite (Hi f Hin). unfold pick. rewrite Hrep, poss_app, last_app. cbn [poss cf]. rewrite Z.eqb_refl.
  rewrite (proj2 (poss_nil_iff f _ post) Hocc). cbn [last ct]. rewrite zlen_app. done.
Qed.

(** The string setter is the bytes setter. *)
Lemma m_set_string m f x : m_set PString m f (VString x) = m_set PBytes m f (VBytes (Some x)).
Proof. rewrite !m_set_args. done. Qed.

Definition bytes_val (T : ptype) (x : list Z) : pval := match T with PString => VString x | _ => VBytes (Some x) end.

Lemma m_set_bytes_val T m f x : T = PString \/ T = PBytes ->
  m_set T m f (bytes_val T x) = m_set PBytes m f (VBytes (Some x)).
Proof. intros [->| ->]; [apply m_set_string|done]. Qed.

(** From the record layer to the setter with a view. *)
Lemma h_set_view_alias grow σ h f s : hwf σ h -> swf σ s ->
  (forall a j, in_bytes s a j -> ~ in_spare (h_buf h) a j) ->
  (forall off n tag valLen, offsets_get (hoffs σ h) f = Ok (off, true) ->
     old_len (sbytes σ (h_buf h)) off WireBytes = Ok n -> put_uvarint MaxVarintLen64 (make_tag f WireBytes) = Ok tag ->
     put_uvarint MaxVarintLen64 (u64 (hlen s)) = Ok valLen ->
     if n =? zlen valLen + hlen s
     then forall a j, in_bytes s a j -> ~ in_part (h_buf h) off (off + zlen valLen) a j
     else zlen tag <= off /\ 0 <= n /\ off + n < 2 ^ 64 /\ hlen (h_buf h) < 2 ^ 64 /\
          forall a j, in_bytes s a j ->
            ~ (in_window (h_buf h) a j /\ exists b, h_buf h = Some b /\ soff b + (off - zlen tag) <= j)) ->
  refines σ h (m_set PBytes (abs σ h) f (VBytes (Some (sbytes σ s)))) (h_set_view grow σ h f s).
Proof.
  intros Hwf Hs Hsp Hc. rewrite m_set_args. unfold h_set_view. cbn [set_args default from_option id].
  rewrite (sbytes_length σ s Hs).
  destruct (put_uvarint_res MaxVarintLen64 (u64 (hlen s))) as [->|(vl & Evl & _)]; [done|].
  rewrite Evl, !rbind_Ok.
  apply refines_single; [done|apply hsetSingle_frame; done|].
  apply (hsetSingle_refines_alias grow σ h f WireBytes vl (View s)); [done|split; done|].
  intros off n tag E1 E2 E3. specialize (Hc off n tag vl E1 E2 E3 Evl). cbn [src_len].
  destruct (n =? _); [split; done|]. destruct Hc as (A & B & C & D & E). split_and!; try done.
Qed.

(** SetBytes/SetString with a window [p, p+n) of the message itself. *)
Lemma self_view grow mt sc os σ h f T s d :
  schema_ok mt sc -> history mt sc os (abs σ h) -> hwf σ h ->
  sc f = Some (KSingle T) -> T = PString \/ T = PBytes ->
  h_buf h = Some s -> sarr d = sarr s -> soff s <= soff d -> soff d + slen d <= soff s + slen s -> swf σ (Some d) ->
  ops_size os + 20 + slen d < 2 ^ 63 ->
  let p := soff d - soff s in
  let n := slen d in
  (spec_run sc os f = [] \/
   exists b1 tb lb x0 b2, last_bytes_record f (sbytes σ (Some s)) b1 tb lb x0 b2 /\
     (p + n <= zlen b1 \/
      (zlen x0 = n /\ is_minimal_varint n lb /\ zlen (b1 ++ tb ++ lb) <= p))) ->
  exists σ' h', h_set_view grow σ h f (Some d) = Ok (σ', h') /\
    m_set T (abs σ h) f (bytes_val T (sbytes σ (Some d))) = Ok (abs σ' h') /\ hwf σ' h' /\ own_frame σ h σ' h'.
Proof.
  intros Hsc Hh Hwf Hf HT Hb Harr Ho1 Ho2 Hd Hsz p n Hcond.
  destruct (hist_rep mt sc os (abs σ h) Hsc Hh) as (cs & Hrep & Hspec & Hlen).
  { destruct Hd as (l & _ & _ & Hd & _). lia. }
  assert (Hn : 0 <= n) by (destruct Hd as (l & _ & _ & Hd & _); unfold n; lia).
  assert (Hnb : n = zlen (sbytes σ (Some d))) by (rewrite (sbytes_length σ _ Hd); done).
  assert (Hin : in_type T (bytes_val T (sbytes σ (Some d)))).
  { assert (Forall is_byte (sbytes σ (Some d))).
    { pose proof (rep_bytes _ _ _ _ Hrep) as Hby. cbn [abs mbuf] in Hby. rewrite Hb in Hby.
      cbn [sbytes] in *. rewrite Harr. rewrite Forall_forall in Hby |- *. intros z Hz. apply Hby.
      apply elem_of_list_lookup in Hz as [i Hi]. rewrite window_lookup in Hi.
      destruct (Nat.ltb_spec i (Z.to_nat (slen d))); [|done].
      apply elem_of_list_lookup. exists (Z.to_nat p + i)%nat. rewrite window_lookup.
      pose proof (proj1 Hwf) as Hs. rewrite Hb in Hs. destruct Hs as (l & Hl & HH).
      destruct (Nat.ltb_spec (Z.to_nat p + i) (Z.to_nat (slen s))); [|unfold p in *; lia].
      rewrite <- Hi. f_equal. unfold p. lia. }
    destruct HT as [-> | ->]; done. }
  destruct (rep_set' mt sc (abs σ h) cs f T (bytes_val T (sbytes σ (Some d)))) as (m' & cs' & Hset & _); try done.
  { destruct HT as [-> | ->]; cbn [bytes_val pval_size]; fold (zlen (sbytes σ (Some d))); unfold n in *; lia. }
  assert (Hsw : swf σ (Some s)) by (rewrite <- Hb; apply Hwf).
  assert (Hlenb : zlen (sbytes σ (Some s)) < 2 ^ 63).
  { cbn [abs mbuf] in Hlen. rewrite Hb in Hlen. pose proof (zlen_nonneg (sbytes σ (Some d))). unfold n in *. lia. }
  assert (Hslen : slen s = zlen (sbytes σ (Some s))) by (rewrite (sbytes_length σ _ Hsw); done).
  assert (Href : refines σ h (m_set PBytes (abs σ h) f (VBytes (Some (sbytes σ (Some d))))) (h_set_view grow σ h f (Some d))).
  { apply h_set_view_alias; try done.
    - intros a j [-> Hj]. rewrite Hb. cbn. lia.
    - intros off k tag valLen E1 E2 E3 E4.
      pose proof (rep_owf _ _ _ _ Hrep) as Howf. cbn [abs moff] in Howf.
      assert (Hr : in_range (hoffs σ h) f).
      { pose proof (rep_len _ _ _ _ Hrep) as HL. unfold in_range. cbn [abs moff] in HL. rewrite HL. eapply Hsc, Hf. }
      pose proof (offsets_get_eq _ _ Howf Hr) as Hg.
      pose proof (rep_idx _ _ _ _ Hrep) as Hi. cbn [abs moff] in Hi.
      pose proof (cmin_valid _ (rep_min _ _ _ _ Hrep)) as Hv.
      pose proof (rep_buf _ _ _ _ Hrep) as Hbuf. cbn [abs mbuf] in Hbuf. rewrite Hb in Hbuf.
      assert (Hrepf : is_repeated (reps mt) f = false).
      { destruct (is_repeated (reps mt) f) eqn:E; [|reflexivity]. apply is_repeated_In in E. exfalso. eapply Hsc; eassumption. }
      destruct Hcond as [Hunset|(b1 & tb & lb & x0 & b2 & Hlr & Hcond)].
      { rewrite Hspec in Hunset. unfold view in Hunset. rewrite Hf in Hunset.
        assert (Hocc : occ f (map crecord cs) = []).
        { destruct (occ f (map crecord cs)) eqn:E; [done|]. exfalso. unfold last_only in Hunset.
          destruct (last (_ :: _)) eqn:E'; [done|]. apply last_None in E'. done. }
        rewrite (Hi f Hr), (proj2 (poss_nil_iff f 0 cs) Hocc), pick_nil in Hg. congruence. }
      pose proof (last_record_indexed _ _ _ _ _ _ _ _ _ _ Hlr Hv Hbuf Hlenb Hi Hr Hrepf) as Hof.
      rewrite Hof in Hg. rewrite Hg in E1. injection E1 as <-.
      destruct (last_record_concrete _ _ _ _ _ _ _ _ Hlr Hv Hbuf Hlenb) as (pre & post & Hcs & _).
      destruct Hlr as (Hm & _ & Htag & Hlb & Hx0 & _).
      assert (Hmint : minimal_tag_enc (f, WBytes x0) tb).
      { pose proof (rep_min _ _ _ _ Hrep) as Hmin. rewrite Hcs in Hmin. apply Forall_app in Hmin as [_ Hmin].
        apply Forall_cons in Hmin as [[_ Hmin] _]. exact Hmin. }
      assert (Hpl : payload_enc (WBytes x0) (lb ++ x0)) by (exists lb; auto).
      rewrite Hb in E2 |- *.
      assert (Hm' : sbytes σ (Some s) = (b1 ++ tb) ++ (lb ++ x0) ++ b2) by (rewrite Hm, <- !app_assoc; done).
      rewrite Hm' in E2, Hslen, Hlenb.
      pose proof (zlen_nonneg b1). pose proof (zlen_nonneg tb). pose proof (zlen_nonneg lb). pose proof (zlen_nonneg x0). pose proof (zlen_nonneg b2).
      rewrite !zlen_app in Hlenb, Hslen.
      pose proof (old_len_ok (b1 ++ tb) (WBytes x0) (lb ++ x0) b2 Hpl ltac:(rewrite zlen_app; lia)) as E2'.
      change (wire_type (WBytes x0)) with WireBytes in E2'. rewrite E2 in E2'. injection E2' as ->. clear E2.
      assert (Htl : zlen tag = zlen tb).
      { destruct Hmint as [Hf0 Hmint].
        destruct (SetFacts.tag_bytes_ok f (WBytes x0)) as (tb' & E3' & Hmint' & _).
        { destruct Hsc as (Hal & Hrg & _). specialize (Hrg f _ Hf). change (2 ^ 59) with (2 ^ 29 * 2 ^ 30). lia. }
        cbn [wire_type] in E3'. change 2 with WireBytes in E3'. rewrite E3 in E3'. injection E3' as <-.
        destruct Hmint' as [_ [Hb1 Hb2]]. destruct Hmint as [Hm1 Hm2].
        pose proof (Hb2 _ Hm1). pose proof (Hm2 _ Hb1). unfold zlen. lia. }
      cbn [hlen]. fold n.
      assert (Hvl : is_minimal_varint n valLen).
      { pose proof (put_uvarint_minimal MaxVarintLen64 n) as (bs & Hbs & Hbm).
        - pows. unfold n in *. lia.
        - change (7 * Z.of_nat MaxVarintLen64) with 70. change (2 ^ 70) with (2 ^ 63 * 128). unfold n in *. lia.
        - unfold MaxVarintLen64. lia.
        - cbn [hlen] in E4. fold n in E4. rewrite u64_small in E4 by (unfold n in *; pows; lia).
          rewrite Hbs in E4. injection E4 as <-. done. }
      rewrite zlen_app.
      destruct Hcond as [Hcond|(Hx & Hlbm & Hpos)].
      + destruct (_ =? _).
        * intros a j [-> Hj] [_ Hj']. rewrite zlen_app in Hj'. unfold p, n in *. lia.
        * rewrite !zlen_app. split_and!; try lia. intros a j [-> Hj] [_ (b & [= <-] & Hj')]. unfold p, n in *. lia.
      + assert (zlen lb = zlen valLen) as Hll.
        { destruct Hvl as [V1 V2]. destruct Hlbm as [L1 L2]. pose proof (V2 _ L1). pose proof (L2 _ V1). unfold zlen. lia. }
        replace (zlen lb + zlen x0 =? zlen valLen + n) with true by lia.
        intros a j [-> Hj] [_ Hj']. rewrite !zlen_app in *. unfold p, n in *. lia. }
  rewrite (m_set_bytes_val T) in * by done. rewrite Hset in *.
  destruct Href as (σ' & h' & E & Ha & Hw & Hfr). exists σ', h'. split_and!; try done. congruence.
Qed.

(** ** C30 *)
Lemma view_of_win σ h s p : h_buf h = Some s -> sbytes σ (Some (win s p.1 (zlen p.2))) = p.2 ->
  is_view σ h (Some p) (Some (win s p.1 (zlen p.2))).
Proof. intros Hh Hb. exists s. split; [done|]. split; [|done]. split_and!; done. Qed.

(** Common to histories and decoded messages. *)
Lemma views_laid_out σ h reps cs f :
  hwf σ h -> sbytes σ (h_buf h) = flat cs -> Forall cvalid cs -> owf (hoffs σ h) ->
  indexes reps (hoffs σ h) cs -> zlen (flat cs) < 2 ^ 63 -> in_range (hoffs σ h) f ->
  (is_repeated reps f = false -> (forall w, last (occ f (map crecord cs)) = Some w -> wire_type w = 2) ->
   exists d, slice_at σ h f = Ok d /\ is_view σ h (last (payloads f 0 (map part cs))) (default None d)) /\
  (is_repeated reps f = true -> all_bytes f cs ->
   forall k, exists it l, h_iter σ h f = Ok it /\ h_finds k σ it f = Ok l /\
     Forall2 (is_view σ h) (map Some (take k (payloads f 0 (map part cs))) ++
                            replicate (k - length (payloads f 0 (map part cs))) None) l).
Proof.
  intros Hwf Hb Hv Ho Hi Hlen Hr. destruct (h_buf h) as [s|] eqn:Eh.
  - pose proof (proj1 Hwf) as Hs. rewrite Eh in Hs. split.
    + intros Hrep Hw. pose proof (slice_at_last σ h s reps cs Eh Hs Hb Hv Ho Hi Hlen f Hr Hrep Hw) as H.
      revert H. destruct (last (payloads f 0 (map part cs))) as [p|]; intros H.
      * destruct H as [-> Hsb]. eexists. split; [done|]. cbn [default from_option id]. apply view_of_win; done.
      * rewrite H. eexists. split; [done|]. done.
    + intros Hrep Hall k. exists (rest_it s f 0 cs).
      assert (Hlen2 : zlen (sbytes σ (Some s)) < 2 ^ 63) by (rewrite Hb; exact Hlen).
      destruct (h_finds_at σ s f cs 0 k [] Hs Hb eq_refl Hv Hall Hlen2) as (l & Hl & ->).
      eexists. split; [exact (h_iter_first σ h s reps cs Eh Hs Hb Hv Ho Hi Hlen f Hr Hrep)|]. split; [exact Hl|].
      apply Forall2_app; [|clear; induction (k - _)%nat; constructor; done].
      rewrite Forall2_fmap_l, Forall2_fmap_r, Forall2_fmap_r. apply Forall_Forall2_diag. apply Forall_take.
      clear -Eh Hs Hb Hv Hall.
      assert (Hgen : forall l1 l2, sbytes σ (Some s) = l1 ++ flat l2 -> Forall cvalid l2 -> all_bytes f l2 ->
        Forall (fun p => is_view σ h (Some p) (Some (win s p.1 (zlen p.2)))) (payloads f (zlen l1) (map part l2))).
      { intros l1 l2. revert l1. induction l2 as [|c l2 IH]; intros l1 Hsb Hvl Hal; [constructor|].
        rewrite payloads_cons. apply Forall_cons in Hvl as [[Ht Hp] Hvl].
        cbn [flat] in Hsb.
        assert (Hrest : Forall (fun p => is_view σ h (Some p) (Some (win s p.1 (zlen p.2)))) (payloads f (zlen l1 + zlen (cbytes c)) (map part l2))).
        { rewrite <- zlen_app. apply IH; [rewrite <- app_assoc; done|done|]. intros c' Hc'. apply Hal. right. done. }
        destruct (Z.eqb_spec (cf c) f) as [Hc|]; [|done]. constructor; [|done].
        destruct (Hal c ltac:(left) Hc) as [x Hx]. rewrite Hx in *. cbn [bytes_of].
        destruct Hp as (lb & Hcp & _). unfold cbytes in *. rewrite Hcp in *.
        apply view_of_win; [done|]. cbn [fst snd].
        destruct (h_range_at σ s (l1 ++ ct c ++ lb) x (flat l2) (zlen l1 + zlen (ct c ++ lb ++ x) - zlen x)
          (zlen (l1 ++ ct c ++ lb) + zlen x)) as [_ H]; try done.
        - rewrite Hsb, <- !app_assoc. done.
        - rewrite !zlen_app. lia. }
      apply (Hgen [] cs); done.
  - cbn in Hb. destruct cs as [|c cs].
    2: { exfalso. apply Forall_cons in Hv as [[Ht _] _]. apply tag_len in Ht. cbn [flat] in Hb. symmetry in Hb.
         apply app_eq_nil in Hb as [Hb _]. apply app_eq_nil in Hb as [Hb _]. rewrite Hb in Ht. unfold zlen in Ht. cbn in Ht. lia. }
    assert (Hn : ofun (hoffs σ h) f = None) by (rewrite (Hi f Hr); apply pick_nil).
    split.
    + intros _ _. unfold slice_at. rewrite (with_offset_none _ _ _ _ Ho Hr Hn). eexists. split; done.
    + intros _ _ k. unfold h_iter. rewrite (with_offset_none _ _ _ _ Ho Hr Hn). exists None, (replicate k None).
      split; [done|]. split.
      * clear. induction k as [|k IH]; [done|]. cbn [h_finds h_find rbind]. rewrite IH. done.
      * cbn [map payloads]. rewrite take_nil. cbn [map app length]. rewrite Nat.sub_0_r.
        clear. induction k; constructor; done.
Qed.

Lemma history_views mt sc os σ h ps f :
  schema_ok mt sc -> history mt sc os (abs σ h) -> ops_size os < 2 ^ 63 -> hwf σ h ->
  wire_parts ps (sbytes σ (h_buf h)) ->
  (forall T, sc f = Some (KSingle T) -> T = PString \/ T = PBytes ->
     exists d, slice_at σ h f = Ok d /\ is_view σ h (last (payloads f 0 ps)) (default None d)) /\
  (sc f = Some KRepeated ->
     forall k, exists it l, h_iter σ h f = Ok it /\ h_finds k σ it f = Ok l /\
       Forall2 (is_view σ h) (map Some (take k (payloads f 0 ps)) ++ replicate (k - length (payloads f 0 ps)) None) l).
Proof.
  intros Hsc Hh Hsz Hwf Hps.
  destruct (hist_rep mt sc os (abs σ h) Hsc Hh Hsz) as (cs & Hrep & _ & Hlen).
  pose proof (rep_buf _ _ _ _ Hrep) as Hb. cbn [abs mbuf] in Hb, Hlen.
  pose proof (cmin_valid _ (rep_min _ _ _ _ Hrep)) as Hv.
  assert (Hlen' : zlen (flat cs) < 2 ^ 63) by (rewrite <- Hb; lia).
  apply wire_parts_concrete in Hps as (cs' & Hv' & <- & Hb').
  assert (cs' = cs) as ->. { apply flat_det; try done; [rewrite Hb', Hb; done|congruence]. }
  assert (Hin : forall k, sc f = Some k -> in_range (hoffs σ h) f).
  { intros k Hk. pose proof (rep_len _ _ _ _ Hrep) as HL. unfold in_range. cbn [abs moff] in HL. rewrite HL. eapply Hsc, Hk. }
  pose proof (views_laid_out σ h (reps mt) cs f Hwf Hb Hv (rep_owf _ _ _ _ Hrep) (rep_idx _ _ _ _ Hrep) Hlen') as H.
  split.
  - intros T Hf HT. apply (H (Hin _ Hf)).
    + destruct (is_repeated (reps mt) f) eqn:E; [|reflexivity]. apply is_repeated_In in E. exfalso. eapply Hsc; eassumption.
    + intros w Hw. apply last_Some_elem_of in Hw.
      pose proof (rep_typed _ _ _ _ Hrep) as Hty. clear -Hw Hty Hf HT. induction cs as [|c cs IH]; [inversion Hw|].
      apply Forall_cons in Hty as [[_ Hc] Hty]. cbn [map occ crecord] in Hw.
      destruct (Z.eqb_spec (cf c) f) as [Hcf|]; [|auto]. apply elem_of_cons in Hw as [->|Hw]; [|auto].
      unfold well_typed in Hc. cbn [crecord fst snd] in Hc. rewrite Hcf, Hf in Hc. destruct Hc as [-> _].
      destruct HT as [-> | ->]; done.
  - intros Hf. apply (H (Hin _ Hf)).
    + apply is_repeated_In. eapply Hsc, Hf.
    + eapply typed_all_bytes; [|exact Hf]. eapply Forall_impl; [apply (rep_typed _ _ _ _ Hrep)|]. intros c [_ ?]. done.
Qed.

Lemma decoded_views mt σ h s ps :
  hwf σ h -> swf σ s -> of_type mt (abs σ h) -> wire_parts ps (sbytes σ s) ->
  Forall (fun p => p.1.1 < Z.of_nat (alen mt)) ps -> hlen s < 2 ^ 63 ->
  exists σ' h', h_decode mt σ h s = Ok (None, σ', h') /\ arrs σ' = arrs σ /\ h_buf h' = s /\
    forall f, 0 <= f < Z.of_nat (alen mt) -> Forall (fun w => wire_type w = 2) (occ f (map fst ps)) ->
      (~ In f (reps mt) -> exists d, slice_at σ' h' f = Ok d /\ is_view σ' h' (last (payloads f 0 ps)) (default None d)) /\
      (In f (reps mt) -> forall k, exists it l, h_iter σ' h' f = Ok it /\ h_finds k σ' it f = Ok l /\
         Forall2 (is_view σ' h') (map Some (take k (payloads f 0 ps)) ++ replicate (k - length (payloads f 0 ps)) None) l).
Proof.
  intros Hwf Hs Ht Hps Hr Hlen.
  apply wire_parts_concrete in Hps as (cs & Hv & <- & Hb).
  assert (Hlen' : zlen (flat cs) < 2 ^ 63) by (rewrite Hb, (sbytes_length σ s Hs); done).
  destruct (decode_msg mt (abs σ h) cs) as (o' & He & Hwf' & Hl' & Hi & _); try done.
  { apply of_type_zlen, Ht. }
  { rewrite Forall_map in Hr. exact Hr. }
  pose proof (h_decode_refines mt σ h s Hwf Hs) as Hd. rewrite <- Hb, He in Hd.
  destruct Hd as ([[err σ'] h'] & Hd & Herr & Habs & Hwf2 & Ha & Hbuf & _). cbn [fst snd] in *. subst err.
  exists σ', h'. split; [done|]. split; [done|]. split; [done|].
  unfold abs in Habs. injection Habs as Hsb Hoff.
  intros f Hf Hw.
  assert (Hin : in_range (hoffs σ' h') f) by (unfold in_range; rewrite Hoff, Hl'; done).
  rewrite <- Hoff in Hwf', Hi.
  pose proof (views_laid_out σ' h' (reps mt) cs f Hwf2 Hsb Hv Hwf' Hi Hlen' Hin) as [H1 H2].
  assert (Hocc : occ f (map fst (map part cs)) = occ f (map crecord cs)) by (rewrite map_map; done).
  rewrite Hocc in Hw. split.
  - intros Hn. apply H1.
    + destruct (is_repeated (reps mt) f) eqn:E; [|reflexivity]. apply is_repeated_In in E. done.
    + intros w Hlw. rewrite Forall_forall in Hw. apply Hw. apply last_Some_elem_of in Hlw. done.
  - intros Hn. apply H2; [apply is_repeated_In; done|].
    intros c Hc Hcf. rewrite Forall_forall in Hw.
    assert (Hwt : wire_type (cw c) = 2).
    { apply Hw. clear -Hc Hcf. induction cs as [|c' cs IH]; [inversion Hc|].
      cbn [map occ crecord]. apply elem_of_cons in Hc as [->|Hc].
      - rewrite Hcf, Z.eqb_refl. left.
      - destruct (cf c' =? f); [right|]; apply IH, Hc. }
    destruct (cw c); try discriminate. eauto.
Qed.

(** Message and Next leave the struct on the slice they found. *)
Lemma h_message_buf mt' σ h f x ok err σ' x' :
  h_message mt' σ h f x = Ok (ok, err, σ', x') ->
  arrs σ' = arrs σ /\
  exists d, slice_at σ h f = Ok d /\ (if ok then h_buf x' = default None d /\ is_Some (h_buf x') else default None d = None /\ x' = x).
Proof.
  unfold h_message. destruct (slice_at σ h f) as [d| | |]; try done. cbn [rbind].
  destruct (default None d) as [s|] eqn:E.
  - unfold h_decode. destruct (Decode _ _ _ _) as [[e o]| | |]; try done. cbn [rbind].
    destruct (put_offs _ _ _) as [σ1 h1] eqn:E2. intros [= <- <- <- <-].
    unfold put_offs in E2. destruct (h_m (put_buf x (Some s))), (om o); injection E2 as <- <-; split; try done;
      exists d; rewrite E; (split; [done|]); cbn; eauto.
  - intros [= <- <- <- <-]. split; [done|]. exists d. rewrite E. done.
Qed.

Lemma h_next_buf mt' σ it f x it' ok err σ' x' :
  h_next mt' σ it f x = Ok (it', ok, err, σ', x') ->
  arrs σ' = arrs σ /\
  exists d, h_find σ it f = Ok (it', d) /\ (if ok then h_buf x' = d /\ is_Some d else d = None /\ x' = x).
Proof.
  unfold h_next. destruct (h_find σ it f) as [[i d]| | |]; try done. cbn [rbind].
  destruct d as [s|].
  - unfold h_decode. destruct (Decode _ _ _ _) as [[e o]| | |]; try done. cbn [rbind].
    destruct (put_offs _ _ _) as [σ1 h1] eqn:E2. intros [= <- <- <- <- <-].
    unfold put_offs in E2. destruct (h_m (put_buf x (Some s))), (om o); injection E2 as <- <-; split; try done;
      exists (Some s); (split; [done|]); cbn; eauto.
  - intros [= <- <- <- <- <-]. split; [done|]. exists None. done.
Qed.

(** ** C31 *)
Lemma h_mut_frame grow σ h m σ' h' : hwf σ h -> h_mut grow σ h m = Ok (σ', h') -> hwf σ' h' /\ own_frame σ h σ' h'.
Proof.
  intros Hwf. destruct m as [T f v|f s|f v]; cbn [h_mut]; intros E.
  - pose proof (h_set_frame grow T σ h f v Hwf) as H. rewrite E in H. done.
  - pose proof (h_set_view_frame grow σ h f s Hwf) as H. rewrite E in H. done.
  - pose proof (h_append_bytes_frame grow σ h f v Hwf) as H. rewrite E in H. done.
Qed.
Lemma h_muts_frame grow ms : forall σ h σ' h', hwf σ h -> h_muts grow σ h ms = Ok (σ', h') -> hwf σ' h' /\ own_frame σ h σ' h'.
Proof.
  induction ms as [|m ms IH]; intros σ h σ' h' Hwf; cbn [h_muts]; [intros [= <- <-]; split; [done|apply own_refl]|].
  destruct (h_mut grow σ h m) as [[σ1 h1]| | |] eqn:E; try done. cbn [rbind]. intros E2.
  destruct (h_mut_frame _ _ _ _ _ _ Hwf E) as [Hw1 Hf1]. destruct (IH _ _ _ _ Hw1 E2) as [Hw2 Hf2].
  split; [done|]. eapply own_trans; eauto.
Qed.

(** ** C32 *)
Lemma frame_abs_get σ σ' h P : only_changes σ σ' P (fun _ => False) -> hwf σ h ->
  (forall a j, in_window (h_buf h) a j -> ~ P a j) -> abs σ' h = abs σ h /\ hwf σ' h.
Proof. intros H Hw Hd. eapply abs_frame; eauto. Qed.

Lemma set_view_copied grow mt sc os σ h f T s :
  schema_ok mt sc -> history mt sc os (abs σ h) -> hwf σ h -> sc f = Some (KSingle T) -> T = PString \/ T = PBytes ->
  swf σ s -> Forall is_byte (sbytes σ s) -> apart s (h_buf h) -> ops_size os + 20 + hlen s < 2 ^ 63 ->
  exists σ' h', h_set_view grow σ h f s = Ok (σ', h') /\ sbytes σ' s = sbytes σ s /\
    m_set T (abs σ h) f (bytes_val T (sbytes σ s)) = Ok (abs σ' h') /\
    forall σ'', only_changes σ' σ'' (in_window s) (fun _ => False) ->
      exists v, h_get T σ'' h' f = Ok v /\ hval_of σ'' v = bytes_val T (sbytes σ s).
Proof.
  intros Hsc Hh Hwf Hf HT Hs Hby Hap Hsz.
  destruct (read_your_write mt sc os (abs σ h) f T (bytes_val T (sbytes σ s))) as (m' & Hset & Hget); try done.
  { destruct HT as [-> | ->]; done. }
  { destruct HT as [-> | ->]; cbn [bytes_val pval_size]; fold (zlen (sbytes σ s)); rewrite (sbytes_length σ s Hs); lia. }
  pose proof (h_set_view_refines grow σ h f s Hwf Hs) as Href.
  assert (Hnw : forall a j, in_bytes s a j -> ~ in_window (h_buf h) a j).
  { intros a j Hj Hj'. eapply Hap; [|exact Hj']. apply (in_bytes_window σ); done. }
  specialize (Href ltac:(intros a j Hj Hj'; apply (Hnw a j Hj); eapply spare_window; [apply Hwf|done])).
  specialize (Href ltac:(right; exact Hnw)).
  rewrite <- (m_set_bytes_val T) in Href by done. rewrite Hset in Href.
  destruct Href as (σ' & h' & E & Ha & Hw & Hfr).
  exists σ', h'. split; [done|]. split.
  { destruct Hfr as (F1 & _). eapply sbytes_frame; [apply F1|done|]. apply Hnw. }
  split; [rewrite Hset, Ha; done|].
  intros σ'' Hch.
  destruct (abs_frame _ _ _ _ h' Hch Hw) as [Ha2 Hw2].
  { intros a j Hj Hj'. destruct Hfr as (_ & F2 & _). destruct (F2 a j Hj) as [Hj2|Hn].
    - eapply Hap; eauto.
    - destruct s as [s|]; [|done]. destruct Hs as (l & Hl & _). destruct Hj' as [-> _]. congruence. }
  { intros k _ []. }
  pose proof (h_get_refines T σ'' h' f Hw2) as Hg. rewrite Ha2, Ha, Hget in Hg.
  destruct Hg as (v & Hv & Hval). exists v. split; [done|]. rewrite Hval. destruct HT as [-> | ->]; done.
Qed.

(** ** C34 *)
Lemma m_get_prefix mt sc o b1 b2 b2' cs f T :
  Forall cvalid cs -> owf o -> indexes (reps mt) o cs -> in_range o f -> is_repeated (reps mt) f = false ->
  flat cs = b1 ++ b2 -> zlen (flat cs) < 2 ^ 63 -> zlen b2' = zlen b2 ->
  (exists rs1, wire rs1 b1) -> (exists rs2, wire rs2 b2 /\ occ f rs2 = []) ->
  Forall (fun c => well_typed sc (crecord c)) cs -> sc f = Some (KSingle T) ->
  m_get T (mkMsg (b1 ++ b2') o) f = m_get T (mkMsg (b1 ++ b2) o) f.
Proof.
  intros Hv Hwf Hi Hr Hrep Hfl Hlen Hb (rs1 & W1) (rs2 & W2 & Hocc2) Hty Hf.
  apply wire_concrete in W1 as (cs1 & V1 & <- & <-). apply wire_concrete in W2 as (cs2 & V2 & <- & <-).
  assert (cs = cs1 ++ cs2) as ->.
  { apply flat_det; [done|apply Forall_app; done|done|]. rewrite flat_app. done. }
  destruct (decide (occ f (map crecord cs1) = [])) as [Hocc|Hocc].
  - assert (Hn : ofun o f = None).
    { rewrite (Hi f Hr). rewrite (proj2 (poss_nil_iff f 0 (cs1 ++ cs2))); [apply pick_nil|].
      rewrite map_app, occ_app, Hocc, Hocc2. done. }
    rewrite !m_get_none by done. done.
  - destruct (split_last f cs1 Hocc) as (pre & c & post & -> & Hcf & Hpost).
    assert (Ho : ofun o f = Some (zlen (flat pre ++ ct c))).
    { rewrite (Hi f Hr). unfold pick. rewrite Hrep, poss_app, last_app.
      rewrite (proj2 (poss_nil_iff f _ cs2) Hocc2). cbn [last]. rewrite poss_app, last_app. cbn [poss]. rewrite Hcf, Z.eqb_refl.
      rewrite (proj2 (poss_nil_iff f _ post) Hpost). cbn [last]. rewrite zlen_app. done. }
    assert (Hc : cvalid c /\ well_typed sc (crecord c)).
    { apply Forall_app in V1 as [_ V1]. inversion V1. split; [done|].
      apply Forall_app in Hty as [Hty _]. apply Forall_app in Hty as [_ Hty]. inversion Hty. done. }
    destruct Hc as [[Ht Hp] Hwt]. unfold well_typed in Hwt. cbn [crecord fst snd] in Hwt. rewrite Hcf, Hf in Hwt.
    assert (Hshape : forall b, flat (pre ++ c :: post) ++ b = (flat pre ++ ct c) ++ cp c ++ (flat post ++ b)).
    { intros b. rewrite flat_app. cbn [flat]. unfold cbytes. rewrite <- !app_assoc. done. }
    rewrite !Hshape. rewrite Hfl, Hshape in Hlen.
    rewrite (m_get_some T o f (flat pre ++ ct c) (cw c) (cp c) (flat post ++ b2')); try done.
    2: { rewrite !zlen_app in *. lia. }
    rewrite (m_get_some T o f (flat pre ++ ct c) (cw c) (cp c) (flat post ++ flat cs2)); done.
Qed.

Lemma child_mutation grow mt sc os σ h s c d ms σ' c' b1 b2 f T :
  schema_ok mt sc -> history mt sc os (abs σ h) -> ops_size os < 2 ^ 63 -> hwf σ h -> hwf σ c ->
  h_buf h = Some s -> h_buf c = Some d -> (forall l, h_m h = Some l -> h_m c <> Some l) ->
  sbytes σ (Some s) = b1 ++ b2 -> soff s + zlen b1 <= soff d ->
  h_muts grow σ c ms = Ok (σ', c') ->
  (exists b2', sbytes σ' (Some s) = b1 ++ b2' /\ length b2' = length b2) /\
  (sc f = Some (KSingle T) -> (exists rs1, wire rs1 b1) -> (exists rs2, wire rs2 b2 /\ occ f rs2 = []) ->
   exists v v', h_get T σ h f = Ok v /\ h_get T σ' h f = Ok v' /\ hval_of σ' v' = hval_of σ v).
Proof.
  intros Hsc Hh Hsz Hwf Hwc Hb Hd Hm Hsb Hpos Hms.
  destruct (h_muts_frame _ _ _ _ _ _ Hwc Hms) as [_ (F1 & _)].
  pose proof (proj1 Hwf) as Hs. rewrite Hb in Hs.
  assert (Hs' : swf σ' (Some s)) by (eapply swf_frame; eauto).
  pose proof (sbytes_length σ _ Hs) as L1. pose proof (sbytes_length σ' _ Hs') as L2.
  assert (Hpre : take (length b1) (sbytes σ' (Some s)) = b1).
  { assert (Heq : sbytes σ' (Some (win s 0 (zlen b1))) = sbytes σ (Some (win s 0 (zlen b1)))).
    { eapply sbytes_frame; [apply F1| |].
      - destruct Hs as (l & Hl & HH). exists l. cbn. rewrite Hsb, zlen_app in L1. cbn [hlen] in L1.
        pose proof (zlen_nonneg b1). pose proof (zlen_nonneg b2). split; [done|]. lia.
      - intros a j Hj. rewrite Hd. cbn in *. intros [-> Hj']. lia. }
    assert (Hw : forall τ, sbytes τ (Some (win s 0 (zlen b1))) = take (length b1) (sbytes τ (Some s))).
    { intros τ. cbn [sbytes win sarr soff slen]. rewrite take_take, Z.add_0_r. f_equal.
      rewrite Hsb, zlen_app in L1. cbn [hlen] in L1. unfold zlen in *. lia. }
    rewrite !Hw, Hsb, take_app in Heq. done. }
  assert (Hsplit : sbytes σ' (Some s) = b1 ++ drop (length b1) (sbytes σ' (Some s))).
  { rewrite <- Hpre at 1. rewrite take_drop. done. }
  assert (Hl2 : length (drop (length b1) (sbytes σ' (Some s))) = length b2).
  { rewrite drop_length. rewrite Hsb in L1. unfold zlen in *. rewrite app_length in L1. lia. }
  split; [eauto|].
  intros Hf W1 W2.
  destruct (hist_rep mt sc os (abs σ h) Hsc Hh Hsz) as (cs & Hrep & _ & Hlen).
  destruct Hrep as [Rb Rm Rw Rl Ri Rt]. cbn [abs mbuf moff] in *. rewrite Hb, Hsb in *.
  assert (Hoff : hoffs σ' h = hoffs σ h).
  { unfold hoffs. f_equal. destruct (h_m h) as [l|] eqn:El; [|done]. destruct Hwf as (_ & Hmap & _). rewrite El in Hmap.
    destruct Hmap as [m Hmm]. rewrite Hmm. apply F1; [done|]. intros Hc. eapply Hm; eauto. }
  assert (Hget : m_get T (abs σ' h) f = m_get T (abs σ h) f).
  { unfold abs. rewrite Hb, Hsb, Hsplit, Hoff.
    apply (m_get_prefix mt sc _ b1 b2 _ cs); try done.
    - apply cmin_valid, Rm.
    - unfold in_range. rewrite Rl. eapply Hsc, Hf.
    - destruct (is_repeated (reps mt) f) eqn:E; [|reflexivity]. apply is_repeated_In in E. exfalso. eapply Hsc; eassumption.
    - rewrite <- Rb. lia.
    - unfold zlen. rewrite Hl2. done.
    - eapply Forall_impl; [exact Rt|]. intros ? [_ ?]. done. }
  assert (Hok : m_get T (abs σ h) f = Ok (read_single T (occ f (map crecord cs)))).
  { apply (rep_get mt sc); try done.
    - split; cbn [abs mbuf moff]; try done. rewrite Hb, Hsb. done.
    - cbn [abs mbuf]. rewrite Hb, Hsb. lia. }
  assert (Hwf' : hwf σ' h).
  { destruct Hwf as (_ & Hmap & Hz). split_and!; [rewrite Hb; done| |rewrite Hb; done].
    destruct (h_m h); [|done]. apply F1. done. }
  pose proof (h_get_refines T σ h f Hwf) as G1. pose proof (h_get_refines T σ' h f Hwf') as G2.
  rewrite Hget in G2. rewrite Hok in G1, G2.
  destruct G1 as (v & V & HV). destruct G2 as (v' & V' & HV'). exists v, v'. split_and!; try done. congruence.
Qed.

(** ** Small facts used with the theorems *)
Lemma history_bytes mt sc os m :
  schema_ok mt sc -> history mt sc os m -> ops_size os < 2 ^ 63 -> Forall is_byte (mbuf m).
Proof. intros H1 H2 H3. destruct (hist_rep mt sc os m H1 H2 H3) as (cs & Hr & _). eapply rep_bytes; eauto. Qed.

Lemma window_bytes σ s d :
  swf σ (Some s) -> sarr d = sarr s -> soff s <= soff d -> soff d + slen d <= soff s + slen s ->
  Forall is_byte (sbytes σ (Some s)) -> Forall is_byte (sbytes σ (Some d)).
Proof.
  intros Hs Harr Ho1 Ho2 Hby. cbn [sbytes] in *. rewrite Harr. rewrite Forall_forall in Hby |- *. intros z Hz. apply Hby.
  apply elem_of_list_lookup in Hz as [i Hi]. rewrite window_lookup in Hi.
  destruct (Nat.ltb_spec i (Z.to_nat (slen d))); [|done].
  apply elem_of_list_lookup. exists (Z.to_nat (soff d - soff s) + i)%nat. rewrite window_lookup.
  destruct Hs as (l & Hl & HH).
  destruct (Nat.ltb_spec (Z.to_nat (soff d - soff s) + i) (Z.to_nat (slen s))); [|lia].
  rewrite <- Hi. f_equal. lia.
Qed.

Lemma append_to_any mt sc os m f x :
  schema_ok mt sc -> history mt sc os m -> sc f = Some KRepeated -> Forall is_byte x ->
  ops_size os + 20 + zlen x < 2 ^ 63 -> exists m', m_append m f x = Ok m'.
Proof.
  intros Hsc Hh Hf Hx Hsz. pose proof (zlen_nonneg x).
  destruct (hist_rep mt sc os m Hsc Hh ltac:(lia)) as (cs & Hr & _ & Hl).
  destruct (rep_append mt sc m cs f x) as (m' & _ & E & _); try done; [lia|]. eauto.
Qed.
