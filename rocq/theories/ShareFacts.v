(** * Facts for programs over shared memory *)
From Verif Require Import VarintFacts RecFacts Heap HeapApi Core HeapFacts HeapSet HeapExec HeapAlloc HeapStable GetFacts ScanFacts FindFacts.
From Verif Require Import Spec SpecScan SpecFind SpecPos SpecMem Core6 ApiFacts OffsetsFacts PosFacts HeapEffect P_Find P_Pos P_Effect StretchFacts P_Beyond Demo.
From Verif Require Import SpecShare Share.
From Coq Require Import ZifyBool.

(** ** Slices within arrays *)
Definition good (A : arrays) : Prop := forall a l, A !! a = Some l -> Forall is_byte l /\ Z.of_nat (length l) < 2 ^ 60.
Definition same_sizes (A A' : arrays) : Prop := forall a l, A !! a = Some l -> exists l', A' !! a = Some l' /\ length l' = length l.

Lemma hlen_extent s : hlen s = extent s. Proof. reflexivity. Qed.

Lemma fits_swf A σ s : A ⊆ arrs σ -> fits A s -> swf σ s.
Proof. intros HA. destruct s as [s|]; [|done]. intros (l & Hl & H). exists l. split; [eapply lookup_weaken; eassumption|exact H]. Qed.
Lemma fits_cells A σ s : A ⊆ arrs σ -> fits A s -> cells A s = window σ s.
Proof.
  intros HA. destruct s as [s|]; [|done]. intros (l & Hl & H). unfold cells, window, arr_of. rewrite Hl, (lookup_weaken _ _ _ _ Hl HA). reflexivity.
Qed.
Lemma fits_bytes A σ s : A ⊆ arrs σ -> fits A s -> bytes_in A s = sbytes σ s.
Proof. intros HA Hs. unfold bytes_in. rewrite (fits_cells _ _ _ HA Hs), <- hlen_extent. symmetry. apply window_bytes. eapply fits_swf; eassumption. Qed.
Lemma fits_cells_len A s : fits A s -> Z.of_nat (length (cells A s)) = hcap s.
Proof. intros Hs. pose proof (window_len (mkMem A ∅) s) as H. rewrite (fits_cells A (mkMem A ∅) s) by done. apply H. eapply fits_swf; [|exact Hs]. done. Qed.
Lemma fits_bytes_len A s : fits A s -> Z.of_nat (length (bytes_in A s)) = extent s.
Proof. intros Hs. rewrite (fits_bytes A (mkMem A ∅) s) by done. apply (sbytes_length (mkMem A ∅)). eapply fits_swf; [|exact Hs]. done. Qed.
Lemma fits_sizes A A' s : same_sizes A A' -> fits A s -> fits A' s.
Proof. intros HA. destruct s as [s|]; [|done]. intros (l & Hl & H). destruct (HA _ _ Hl) as (l' & Hl' & E). exists l'. split; [exact Hl'|]. rewrite E. exact H. Qed.
Lemma fits_cap A s : good A -> fits A s -> 0 <= extent s <= hcap s /\ hcap s < 2 ^ 60.
Proof. intros HA. destruct s as [s|]; cbn; [|lia]. intros (l & Hl & H). destruct (HA _ _ Hl) as [_ H2]. lia. Qed.
Lemma good_cells A s : good A -> fits A s -> Forall is_byte (cells A s).
Proof. intros HA. destruct s as [s|]; cbn; [|constructor]. intros (l & Hl & H). rewrite Hl. apply Forall_take, Forall_drop, (HA _ _ Hl). Qed.
Lemma good_bytes A s : good A -> fits A s -> Forall is_byte (bytes_in A s).
Proof. intros HA Hs. apply Forall_take, good_cells; assumption. Qed.
Lemma cells_bytes A s : fits A s -> firstn (Z.to_nat (extent s)) (cells A s) = bytes_in A s.
Proof. reflexivity. Qed.

(** Rewriting the cells of a slice. *)
Lemma rewritten_lookup A s W a : rewritten A s W !! a = rewin s W a <$> A !! a.
Proof.
  destruct s as [s|]; cbn [rewritten]; [|destruct (A !! a); reflexivity]. unfold rewin. destruct (decide (a = sarr s)) as [->|Hne].
  - rewrite lookup_alter. reflexivity.
  - rewrite lookup_alter_ne by done. destruct (A !! a); reflexivity.
Qed.
Lemma rewin_length A s W a l : fits A s -> length W = length (cells A s) -> A !! a = Some l -> length (rewin s W a l) = length l.
Proof.
  intros Hs HW Ha. pose proof (fits_cells_len A s Hs) as Hc. destruct s as [s|]; [|done]. unfold rewin. destruct (decide _) as [->|]; [|done].
  destruct Hs as (l' & Hl' & H). rewrite Ha in Hl'. injection Hl' as <-. cbn [hcap] in Hc. rewrite !app_length, take_length, drop_length. lia.
Qed.
Lemma rewritten_sizes A s W : fits A s -> length W = length (cells A s) -> same_sizes A (rewritten A s W).
Proof. intros Hs HW a l Ha. rewrite rewritten_lookup, Ha. eexists. split; [reflexivity|]. eapply rewin_length; eassumption. Qed.
Lemma rewritten_good A s W : good A -> fits A s -> length W = length (cells A s) -> Forall is_byte W -> good (rewritten A s W).
Proof.
  intros HA Hs HW Hb a l. rewrite rewritten_lookup. destruct (A !! a) as [l0|] eqn:E; [|discriminate]. cbn. intros [= <-].
  destruct (HA _ _ E) as [H1 H2]. rewrite (rewin_length A) by assumption. split; [|exact H2]. destruct s as [s|]; [|exact H1]. unfold rewin. destruct (decide _); [|exact H1].
  rewrite !Forall_app. split_and!; [apply Forall_take, H1|exact Hb|apply Forall_drop, H1].
Qed.
Lemma effect_rewritten A σ s σ' W : A ⊆ arrs σ -> effect σ s σ' W -> rewritten A s W ⊆ arrs σ'.
Proof.
  intros HA He. apply map_subseteq_spec. intros a l. rewrite rewritten_lookup. destruct (A !! a) as [l0|] eqn:E; [|discriminate]. cbn. intros [= <-].
  apply He. eapply lookup_weaken; eassumption.
Qed.
Lemma sizes_trans A B C : same_sizes A B -> same_sizes B C -> same_sizes A C.
Proof. intros H1 H2 a l Ha. destruct (H1 _ _ Ha) as (l1 & H3 & E1). destruct (H2 _ _ H3) as (l2 & H4 & E2). exists l2. split; [exact H4|congruence]. Qed.
Lemma sizes_insert A a l : A !! a = None -> same_sizes A (<[a := l]> A).
Proof. intros Ha b l0 Hb. exists l0. split; [|reflexivity]. rewrite lookup_insert_ne; [exact Hb|congruence]. Qed.
Lemma sizes_refl A : same_sizes A A. Proof. intros a l Ha. eauto. Qed.

(** ** New arrays hold the message and zeros *)
Definition clean (σ : mem) (c : option slice) : Prop :=
  exists t k, c = Some t /\ soff t = 0 /\ arrs σ !! sarr t = Some (sbytes σ c ++ replicate k 0) /\ slen t = zlen (sbytes σ c) /\ scap t = slen t + Z.of_nat k.
Definition same_array (c c' : option slice) : Prop :=
  match c, c' with None, None => True | Some t, Some t' => sarr t' = sarr t | _, _ => False end.
Definition either (σ' : mem) (c c' : option slice) : Prop := same_array c c' \/ clean σ' c'.

Lemma alloc_clean σ bs e σ' t : alloc σ bs e = (σ', t) -> clean σ' (Some t).
Proof.
  unfold alloc. intros [= <- <-].
  assert (E : sbytes (mkMemory (<[pick (pick_array (chooser σ)) (dom (arrs σ)) := bs ++ replicate e 0]> (arrs σ)) (maps σ) (chooser σ)) (Some (mkSl (pick (pick_array (chooser σ)) (dom (arrs σ))) 0 (zlen bs) (zlen bs + Z.of_nat e))) = bs).
  { cbn [sarr soff slen sbytes]. unfold arr_of. cbn [arrs]. rewrite lookup_insert. unfold default, id, zlen. rewrite Nat2Z.id. change (Z.to_nat 0) with 0%nat. rewrite drop_0. apply take_app. }
  eexists _, e. split; [reflexivity|]. rewrite E. cbn [sarr soff slen scap arrs]. rewrite lookup_insert. auto.
Qed.
Lemma clean_arrs σ σ' c : arrs σ' = arrs σ -> clean σ c -> clean σ' c.
Proof. intros E (t & k & -> & H). exists t, k. unfold sbytes, arr_of in *. rewrite E. auto. Qed.

Lemma append_clean grow σ c p σ' c' : h_append grow σ c p = (σ', c') -> (clean σ c -> clean σ' c') /\ either σ' c c'.
Proof.
  unfold h_append. destruct (Z.leb_spec (hlen c + zlen p) (match c with None => 0 | Some s => scap s end)) as [H|H].
  - destruct c as [t|].
    + intros [= <- <-]. split; [|left; reflexivity]. intros (t' & k & [= <-] & E0 & Ea & El & Ec). cbn [hlen] in *.
      set (b := sbytes σ (Some t)) in *. exists (mkSl (sarr t) (soff t) (slen t + zlen p) (scap t)), (k - length p)%nat. unfold zlen in *.
      assert (Earr : arrs (write σ (sarr t) (soff t + slen t) p) !! sarr t = Some ((b ++ p) ++ replicate (k - length p) 0)).
      { unfold write. cbn [arrs]. rewrite lookup_insert. f_equal. unfold arr_of. rewrite Ea. unfold default, id. rewrite E0, El.
        rewrite take_app_alt by lia. rewrite drop_app_ge by lia. rewrite drop_replicate, <- app_assoc. do 3 f_equal. lia. }
      assert (Esb : sbytes (write σ (sarr t) (soff t + slen t) p) (Some (mkSl (sarr t) (soff t) (slen t + Z.of_nat (length p)) (scap t))) = b ++ p).
      { cbn [sbytes sarr soff slen]. unfold arr_of. rewrite Earr. unfold default, id. rewrite E0. change (Z.to_nat 0) with 0%nat. rewrite drop_0. apply take_app_alt. rewrite app_length. lia. }
      cbn [sarr soff slen scap]. rewrite Esb. split_and!; [reflexivity|exact E0|exact Earr|rewrite app_length; lia|lia].
    + intros [= <- <-]. split; [auto|left; exact I].
  - destruct (alloc _ _ _) as [σ1 t] eqn:E. intros [= <- <-]. apply alloc_clean in E. split; [auto|right; exact E].
Qed.

Lemma appended_either grow σ c ps σ' c' : appended grow σ c ps σ' c' -> (clean σ c -> clean σ' c') /\ either σ' c c'.
Proof.
  induction 1 as [|σ c p σ1 c1 σ2 ps σ3 c3 E Ea H [IH1 IH2]].
  - split; [auto|]. left. destruct c; cbn; auto.
  - destruct (append_clean _ _ _ _ _ _ E) as [H1 H2]. split; [intros Hc; apply IH1; eapply clean_arrs; [exact Ea|auto]|].
    destruct H2 as [H2|H2]; [|right; apply IH1; eapply clean_arrs; eauto].
    destruct IH2 as [IH2|IH2]; [left|right; exact IH2]. destruct c as [t|], c1 as [t1|], c3 as [t3|]; cbn in *; try done. congruence.
Qed.

Lemma hset_new_appended grow σ h f tag vl v σ' h' : hset_new grow σ h f tag vl v = Ok (σ', h') ->
  exists x, appended grow σ (h_buf h) [tag; vl; x] σ' (h_buf h').
Proof.
  unfold hset_new. destruct (h_append grow σ (h_buf h) tag) as [σ1 b1] eqn:E1.
  destruct (offsets_set _ _ _) as [o| | |]; cbn [rbind]; try discriminate.
  destruct (put_offs σ1 _ o) as [σ2 h2] eqn:E2. destruct (put_offs_arrs _ _ _ _ _ E2) as [Ea _].
  destruct (h_append grow σ2 b1 vl) as [σ3 b3] eqn:E3. destruct (h_append grow σ3 b3 (src_bytes σ3 v)) as [σ4 b4] eqn:E4.
  intros [= <- <-]. cbn [put_buf h_buf]. exists (src_bytes σ3 v).
  eapply appended_cons; [exact E1|exact Ea|eapply appended_cons; [exact E3|reflexivity|eapply appended_cons; [exact E4|reflexivity|constructor]]].
Qed.

Lemma h_range_array s lo hi d : h_range s lo hi = Ok d -> same_array s d.
Proof.
  unfold h_range. destruct s as [s|]; [destruct (_ && _); [|discriminate]; intros [= <-]; reflexivity|].
  destruct (_ && _); [intros [= <-]; exact I|discriminate].
Qed.
Lemma same_array_either σ' c d c' : same_array c d -> either σ' d c' -> either σ' c c'.
Proof. intros H [H2|H2]; [left|right; exact H2]. destruct c, d, c'; cbn in *; try done. congruence. Qed.

Lemma hsetSingle_either grow σ h f typ vl v σ' h' : hsetSingle grow σ h f typ vl v = Ok (σ', h') -> either σ' (h_buf h) (h_buf h').
Proof.
  unfold hsetSingle. destruct (put_uvarint _ _) as [tb| | |]; cbn [rbind]; try discriminate.
  destruct (offsets_get _ _) as [[off ok]| | |]; cbn [rbind]; try discriminate.
  assert (Hnew : forall σ h, hset_new grow σ h f tb vl v = Ok (σ', h') -> either σ' (h_buf h) (h_buf h')).
  { intros σ2 h2 E. apply hset_new_appended in E as (x & E). apply appended_either in E. apply E. }
  destruct ok; [|apply Hnew].
  destruct (old_len _ _ _) as [k| | |]; cbn [rbind]; try discriminate. destruct (k =? _).
  - destruct (h_copy σ _ _ _) as [[σ1 k1]| | |]; cbn [rbind]; try discriminate.
    destruct (h_copy σ1 _ _ _) as [[σ2 k2]| | |]; cbn [rbind]; try discriminate. intros [= <- <-]. left. destruct (h_buf h); cbn; auto.
  - destruct (h_from _ _) as [s1| | |]; cbn [rbind]; try discriminate.
    destruct (h_copy σ _ _ _) as [[σ1 k1]| | |]; cbn [rbind]; try discriminate.
    destruct (h_range _ _ _) as [b2| | |] eqn:Er; cbn [rbind]; try discriminate.
    destruct (adjust_map_keys _ _ _ _) as [o| | |]; cbn [rbind]; try discriminate.
    destruct (put_offs σ1 _ o) as [σ2 h2] eqn:E2. destruct (put_offs_arrs _ _ _ _ _ E2) as [_ Eb]. cbn [put_buf h_buf] in Eb.
    intros E. apply Hnew in E. rewrite Eb in E. eapply same_array_either; [eapply h_range_array; exact Er|exact E].
Qed.

Lemma happendSingle_either grow σ h f typ vl v σ' h' : happendSingle grow σ h f typ vl v = Ok (σ', h') -> either σ' (h_buf h) (h_buf h').
Proof.
  unfold happendSingle. destruct (put_uvarint _ _) as [tb| | |]; cbn [rbind]; try discriminate.
  destruct (h_append grow σ (h_buf h) tb) as [σ1 b1] eqn:E1.
  destruct (offsets_get _ _) as [[off ok]| | |]; cbn [rbind]; try discriminate.
  destruct (if ok then _ else _) as [o| | |]; cbn [rbind]; try discriminate.
  destruct (put_offs σ1 _ o) as [σ2 h2] eqn:E2. destruct (put_offs_arrs _ _ _ _ _ E2) as [Ea _].
  destruct (h_append grow σ2 b1 vl) as [σ3 b3] eqn:E3. destruct (h_append grow σ3 b3 (src_bytes σ3 v)) as [σ4 b4] eqn:E4.
  intros [= <- <-]. cbn [put_buf h_buf].
  assert (Hap : appended grow σ (h_buf h) [tb; vl; src_bytes σ3 v] σ4 b4).
  { eapply appended_cons; [exact E1|exact Ea|eapply appended_cons; [exact E3|reflexivity|eapply appended_cons; [exact E4|reflexivity|constructor]]]. }
  apply appended_either in Hap. apply Hap.
Qed.

(** ** No map before the 65535th byte *)
Lemma append_hlen grow σ c p σ' c' : h_append grow σ c p = (σ', c') -> swf σ c -> hlen c' = hlen c + zlen p /\ swf σ' c'.
Proof.
  intros E Hs. destruct (h_append_ok _ _ _ _ _ _ Hs E) as (Hb & Hs' & _). split; [|exact Hs'].
  rewrite <- (sbytes_length σ' c' Hs'), Hb, <- (sbytes_length σ c Hs). unfold zlen. rewrite app_length. lia.
Qed.
Lemma put_offs_none σ h o σ' h' : put_offs σ h o = (σ', h') -> h_m h = None -> om o = None -> h_m h' = None /\ maps σ' = maps σ.
Proof. unfold put_offs. intros E Hm Ho. rewrite Hm, Ho in E. injection E as <- <-. auto. Qed.

Lemma hset_new_short grow σ h f tag vl v σ' h' : swf σ (h_buf h) -> h_m h = None -> hset_new grow σ h f tag vl v = Ok (σ', h') ->
  hlen (h_buf h') <= 65534 -> h_m h' = None.
Proof.
  intros Hs Hm. unfold hset_new. destruct (h_append grow σ (h_buf h) tag) as [σ1 b1] eqn:E1.
  destruct (append_hlen _ _ _ _ _ _ E1 Hs) as [L1 S1].
  destruct (offsets_set _ _ _) as [o| | |] eqn:Eo; cbn [rbind]; try discriminate.
  destruct (put_offs σ1 _ o) as [σ2 h2] eqn:E2. destruct (put_offs_arrs _ _ _ _ _ E2) as [Ea _].
  assert (S2 : swf σ2 b1) by (eapply swf_arrs; [|exact S1]; congruence).
  destruct (h_append grow σ2 b1 vl) as [σ3 b3] eqn:E3. destruct (append_hlen _ _ _ _ _ _ E3 S2) as [L3 S3].
  destruct (h_append grow σ3 b3 (src_bytes σ3 v)) as [σ4 b4] eqn:E4. destruct (append_hlen _ _ _ _ _ _ E4 S3) as [L4 S4].
  intros [= <- <-]. cbn [put_buf h_buf h_m]. intros Hl. unfold zlen in *.
  assert (Hb1 : 0 <= hlen b1 <= 65534).
  { split; [|lia]. destruct b1 as [t|]; cbn; [|lia]. destruct S1 as (? & _ & _ & ? & _). lia. }
  apply offsets_set_shrinks in Eo; [|rewrite u64_small by (pows; lia); lia]. unfold shrinks, hoffs in Eo. rewrite Hm in Eo. cbn [om] in Eo.
  destruct (om o) eqn:Eo2; [contradiction|]. destruct (put_offs_none _ _ _ _ _ E2 Hm Eo2) as [E _]. exact E.
Qed.

Lemma hsetSingle_short grow σ h f typ vl v σ' h' : hwf σ h -> h_m h = None -> hsetSingle grow σ h f typ vl v = Ok (σ', h') ->
  hlen (h_buf h') <= 65534 -> h_m h' = None.
Proof.
  intros (Hs & _) Hm. unfold hsetSingle. destruct (put_uvarint _ _) as [tb| | |]; cbn [rbind]; try discriminate.
  destruct (offsets_get _ _) as [[off ok]| | |]; cbn [rbind]; try discriminate.
  destruct ok; [|apply hset_new_short; assumption].
  destruct (old_len _ _ _) as [k| | |]; cbn [rbind]; try discriminate. destruct (k =? _).
  - destruct (h_copy σ _ _ _) as [[σ1 k1]| | |]; cbn [rbind]; try discriminate.
    destruct (h_copy σ1 _ _ _) as [[σ2 k2]| | |]; cbn [rbind]; try discriminate. intros [= <- <-] _. exact Hm.
  - destruct (h_from _ _) as [s1| | |]; cbn [rbind]; try discriminate.
    destruct (h_copy σ _ _ _) as [[σ1 k1]| | |] eqn:Ec; cbn [rbind]; try discriminate.
    destruct (h_range _ _ _) as [b2| | |] eqn:Er; cbn [rbind]; try discriminate.
    destruct (adjust_map_keys _ _ _ _) as [o| | |] eqn:Eo; cbn [rbind]; try discriminate.
    destruct (put_offs σ1 _ o) as [σ2 h2] eqn:E2. destruct (put_offs_arrs _ _ _ _ _ E2) as [Ea Eb]. cbn [put_buf h_buf] in Eb.
    intros E Hl.
    assert (S1 : swf σ1 (h_buf h)).
    { pose proof (h_copy_ok σ (h_buf h) (u64 (off - u64 (zlen tb))) (sbytes σ s1) Hs) as HH. rewrite Ec in HH.
      destruct (copy_at _ _ _) as [[? ?]| | |]; try discriminate; try contradiction. destruct HH as (σ1' & [= <- _] & _ & _ & H). eapply swf_frame; eassumption. }
    apply adjust_keys_shrinks in Eo. unfold shrinks, hoffs in Eo. rewrite Hm in Eo. cbn [om] in Eo. destruct (om o) eqn:Eo2; [contradiction|].
    destruct (put_offs_none _ _ _ _ _ E2 Hm Eo2) as [E3 _].
    eapply hset_new_short; [|exact E3|exact E|exact Hl]. rewrite Eb. eapply swf_arrs; [exact Ea|].
    pose proof (h_range_sub _ _ _ _ _ S1 Er) as [H _]. exact H.
Qed.

Lemma happendSingle_short grow σ h f typ vl v σ' h' : hwf σ h -> h_m h = None -> happendSingle grow σ h f typ vl v = Ok (σ', h') ->
  hlen (h_buf h') <= 65534 -> h_m h' = None.
Proof.
  intros (Hs & _) Hm. unfold happendSingle. destruct (put_uvarint _ _) as [tb| | |]; cbn [rbind]; try discriminate.
  destruct (h_append grow σ (h_buf h) tb) as [σ1 b1] eqn:E1. destruct (append_hlen _ _ _ _ _ _ E1 Hs) as [L1 S1].
  destruct (offsets_get _ _) as [[off ok]| | |]; cbn [rbind]; try discriminate.
  destruct (if ok then _ else _) as [o| | |] eqn:Eo; cbn [rbind]; try discriminate.
  destruct (put_offs σ1 _ o) as [σ2 h2] eqn:E2. destruct (put_offs_arrs _ _ _ _ _ E2) as [Ea _].
  assert (S2 : swf σ2 b1) by (eapply swf_arrs; [|exact S1]; congruence).
  destruct (h_append grow σ2 b1 vl) as [σ3 b3] eqn:E3. destruct (append_hlen _ _ _ _ _ _ E3 S2) as [L3 S3].
  destruct (h_append grow σ3 b3 (src_bytes σ3 v)) as [σ4 b4] eqn:E4. destruct (append_hlen _ _ _ _ _ _ E4 S3) as [L4 S4].
  intros [= <- <-]. cbn [put_buf h_buf h_m]. intros Hl. unfold zlen in *.
  assert (Hb1 : 0 <= hlen b1 <= 65534).
  { split; [|lia]. destruct b1 as [t|]; cbn; [|lia]. destruct S1 as (? & _ & _ & ? & _). lia. }
  assert (Ho : om o = None).
  { destruct ok.
    - injection Eo as <-. unfold hoffs. rewrite Hm. reflexivity.
    - apply offsets_set_shrinks in Eo; [|rewrite u64_small by (pows; lia); lia]. unfold shrinks, hoffs in Eo. rewrite Hm in Eo. cbn [om] in Eo.
      destruct (om o); [contradiction|reflexivity]. }
  destruct (put_offs_none _ _ _ _ _ E2 Hm Ho) as [E _]. exact E.
Qed.
