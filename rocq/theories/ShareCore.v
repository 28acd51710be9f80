(** * Setters and appends of programs over shared memory *)
From Verif Require Import VarintFacts RecFacts Heap HeapApi Core HeapFacts HeapSet HeapExec HeapAlloc HeapStable GetFacts ScanFacts FindFacts.
From Verif Require Import Spec SpecScan SpecFind SpecPos SpecMem Core6 ApiFacts OffsetsFacts PosFacts HeapEffect P_Find P_Pos P_Effect StretchFacts P_Beyond Demo.
From Verif Require Import SpecShare Share ShareFacts ShareArg.
From Coq Require Import ZifyBool.

Definition bytely (A : arrays) : Prop := forall a l, A !! a = Some l -> Forall is_byte l.
Lemma good_bytely A : good A -> bytely A. Proof. intros H a l Ha. apply (H _ _ Ha). Qed.

(** The buffer after a step. *)
Definition placed_at (σ : mem) (b b' : option slice) (bs : list Z) (stay : bool) : Prop :=
  if stay then b' = option_map (fun t => mkSl (sarr t) (soff t) (Z.of_nat (length bs)) (scap t)) b
  else exists t', b' = Some t' /\ arrs σ !! sarr t' = None.

Lemma put_back_ok A σ σ' b b' W bs stay : A ⊆ arrs σ -> bytely A -> fits A b -> effect σ b σ' W -> length W = length (cells A b) ->
  Forall is_byte W -> Forall is_byte bs -> swf σ' b' -> sbytes σ' b' = bs -> either σ' b b' -> placed_at σ b b' bs stay ->
  exists c A', put_back c A b W bs stay A' b' /\ A' ⊆ arrs σ' /\ same_sizes A A' /\ bytely A' /\ fits A' b'.
Proof.
  intros HA HB Hb He HW HWb Hbs Hb' Ebs Hei Hpl.
  pose proof (effect_rewritten A σ b σ' W HA He) as HR. pose proof (rewritten_sizes A b W Hb HW) as HS.
  assert (HRB : bytely (rewritten A b W)).
  { intros a l. rewrite rewritten_lookup. destruct (A !! a) as [l0|] eqn:E; [|discriminate]. cbn. intros [= <-]. specialize (HB _ _ E).
    destruct b as [t|]; [|exact HB]. unfold rewin. destruct (decide _); [|exact HB]. rewrite !Forall_app. split_and!; [apply Forall_take, HB|exact HWb|apply Forall_drop, HB]. }
  destruct stay; cbn [placed_at] in Hpl.
  - exists (0, 0)%nat, (rewritten A b W). split; [rewrite Hpl; constructor|]. split; [exact HR|]. split; [exact HS|]. split; [exact HRB|].
    rewrite Hpl in *. destruct b as [t|]; [|exact I]. cbn [option_map] in *. destruct Hb as (l & Hl & H1 & H2 & H3). destruct (HS _ _ Hl) as (l' & Hl' & E).
    exists l'. cbn [sarr soff slen scap]. split; [exact Hl'|]. rewrite E. split; [exact H1|]. split; [|exact H3]. split; [lia|].
    destruct Hb' as (l2 & _ & _ & H & _). cbn [slen scap] in H. lia.
  - destruct Hpl as (t' & -> & Hfr).
    assert (HAn : A !! sarr t' = None) by (destruct (A !! sarr t') eqn:E; [|reflexivity]; rewrite (lookup_weaken _ _ _ _ E HA) in Hfr; discriminate).
    assert (HRn : rewritten A b W !! sarr t' = None) by (rewrite rewritten_lookup, HAn; reflexivity).
    destruct Hei as [Hsa|(t & k & [= <-] & E0 & Ea & El & Ec)].
    { exfalso. destruct b as [t|]; [|exact Hsa]. cbn in Hsa. destruct Hb as (l & Hl & _). congruence. }
    rewrite Ebs in *. unfold zlen in El. exists (sarr t', k), (<[sarr t' := bs ++ replicate k 0]> (rewritten A b W)). split_and!.
    + pose proof (back_moved (sarr t', k) A b W bs HAn) as HP. cbn [fst snd] in HP. assert (Et : t' = mkSl (sarr t') 0 (Z.of_nat (length bs)) (Z.of_nat (length bs) + Z.of_nat k)); [|rewrite Et at 3; exact HP].
      destruct t' as [ta t0 tl tc]. cbn in *. congruence.
    + apply insert_subseteq_l; assumption.
    + eapply sizes_trans; [exact HS|apply sizes_insert, HRn].
    + intros a l. destruct (decide (a = sarr t')) as [->|Hne].
      * rewrite lookup_insert. intros [= <-]. apply Forall_app. split; [exact Hbs|]. apply Forall_replicate. unfold is_byte. lia.
      * rewrite lookup_insert_ne by done. apply HRB.
    + eexists. rewrite lookup_insert. split; [reflexivity|]. rewrite app_length, replicate_length. lia.
Qed.

Lemma located_placed σ b b' bs stay σ' : located σ b b' stay -> swf σ' b' -> sbytes σ' b' = bs -> placed_at σ b b' bs stay.
Proof.
  intros Hl Hb' E. destruct stay; [|exact Hl]. destruct Hl as (t & t' & -> & -> & E1 & E2 & E3). cbn. f_equal.
  pose proof (sbytes_length σ' _ Hb') as HL. rewrite E in HL. unfold zlen in HL. cbn in HL. destruct t' as [a o l c]. cbn in *. congruence.
Qed.

Lemma pinv_rebound mt M B m s : pinv mt M m s -> plen s <= B -> (forall g, 0 <= g < Z.of_nat (alen mt) -> forall p, ppos s g = Some p -> p <= B) -> pinv mt B m s.
Proof.
  intros (H1 & H2 & H3 & H4 & H5 & H6) HB HP. unfold pinv. split_and!; try assumption. intros f Hf. destruct (H6 f Hf) as [H7 H8]. split; [exact H7|].
  intros p Hp. specialize (H8 p Hp). specialize (HP f Hf p Hp). lia.
Qed.

Lemma sets_bound T f v s s' n B : sets T f v s (Reached s') -> plen s' <= B ->
  (forall g, 0 <= g < n -> forall p, ppos s g = Some p -> p <= B) -> forall g, 0 <= g < n -> forall p, ppos s' g = Some p -> p <= B.
Proof.
  intros Hs HB HP g Hg p.
  inversion Hs as [tb db He Hp E|p0 tb db He Hp Hpl Hk E|p0 k tb db b e He Hp Hpl Hk Hne Eb Ee Hbe Hel E| | |]; subst s'; cbn [ppos].
  - unfold pset. destruct (decide (g = f)); [|apply HP, Hg]. intros [= <-]. unfold plen in *. cbn [pbytes] in HB. rewrite !app_length in HB. lia.
  - apply HP, Hg.
  - unfold pset. destruct (decide (g = f)).
    + intros [= <-]. unfold plen in *. cbn [pbytes] in HB. rewrite !app_length, firstn_length, skipn_length in HB. lia.
    + destruct (ppos s g) as [q|] eqn:Eq; [|discriminate]. cbn. intros [= <-]. pose proof (HP g Hg q Eq). destruct (e <? q); lia.
Qed.
Lemma appends_bound f x s s' n B : appends f x s (Reached s') -> plen s' <= B ->
  (forall g, 0 <= g < n -> forall p, ppos s g = Some p -> p <= B) -> forall g, 0 <= g < n -> forall p, ppos s' g = Some p -> p <= B.
Proof.
  intros Hs HB HP g Hg p. inversion Hs as [tb db He Hp E|p0 tb db He Hp E]; subst s'; cbn [ppos]; [|apply HP, Hg].
  unfold pset. destruct (decide (g = f)); [|apply HP, Hg]. intros [= <-]. unfold plen in *. cbn [pbytes] in HB. rewrite !app_length in HB. lia.
Qed.

Section Core.
Context (A : arrays) (σ : mem) (h : hmsg) (o : obj) (mt : mtype) (f : Z) (grow : policy).
Hypothesis (Hn : Z.of_nat (alen mt) <= 2 ^ 29) (Eon : o_n o = alen mt) (HA : A ⊆ arrs σ) (HG : good A) (Hbuf : o_buf o = h_buf h) (Hfit : fits A (h_buf h)) (Hwf : hwf σ h)
  (Hinv : pinv mt (2 ^ 60) (abs σ h) (state_of A o)) (Hshort : o_short o = true -> h_m h = None) (Hf : 0 <= f < Z.of_nat (alen mt)).
Local Notation s := (state_of A o).

(** What holds after a step of the struct. *)
Definition after (A' : arrays) (o' : obj) (σ' : mem) (h' : hmsg) : Prop :=
  A' ⊆ arrs σ' /\ same_sizes A A' /\ bytely A' /\ fits A' (h_buf h') /\ hwf σ' h' /\ own_frame σ h σ' h' /\
  (exists pos, o' = become o (h_buf h') pos) /\ (o_short o' = true -> h_m h' = None) /\
  (extent (h_buf h') <= 2 ^ 60 -> pinv mt (2 ^ 60) (abs σ' h') (state_of A' o')).

Definition matches (r : set_result) (call : res (mem * hmsg)) : Prop :=
  match r with
  | SetTo A' o' => exists σ' h', call = Ok (σ', h') /\ after A' o' σ' h'
  | SetPanics => call = Panic
  | SetOpen => True
  end.

Lemma after_intro A' σ' h' s' M : A' ⊆ arrs σ' -> same_sizes A A' -> bytely A' -> fits A' (h_buf h') -> hwf σ' h' -> own_frame σ h σ' h' ->
  pinv mt M (abs σ' h') s' -> (plen s' <= 2 ^ 60 -> forall g, 0 <= g < Z.of_nat (alen mt) -> forall p, ppos s' g = Some p -> p <= 2 ^ 60) ->
  (h_m h = None -> hlen (h_buf h') <= 65534 -> h_m h' = None) ->
  after A' (become o (h_buf h') (ppos s')) σ' h'.
Proof.
  intros H1 H2 H3 H4 H5 H6 H7 H8 H9. unfold after. split_and!; try assumption; [eauto| |].
  - unfold become. cbn [o_short]. intros E. apply andb_true_iff in E as [E1 E2]. apply H9; [apply Hshort, E1|rewrite hlen_extent; lia].
  - intros Hx. assert (Es : state_of A' (become o (h_buf h') (ppos s')) = s').
    { unfold state_of, become. cbn [o_buf o_pos]. rewrite (fits_bytes A' σ' _ H1 H4). destruct H7 as (_ & _ & Hb & _). cbn [abs mbuf] in Hb. rewrite Hb. destruct s'; reflexivity. }
    rewrite Es. assert (Hpl : plen s' = extent (h_buf h')).
    { rewrite <- Es. unfold plen, state_of. cbn [pbytes become o_buf]. apply fits_bytes_len, H4. }
    eapply pinv_rebound; [exact H7|lia|apply H8; lia].
Qed.

Lemma start : plen s = hlen (h_buf h) /\ 0 <= hlen (h_buf h) < 2 ^ 60 /\ pbytes s = sbytes σ (h_buf h) /\ cells A (o_buf o) = window σ (h_buf h) /\
  Forall is_byte (window σ (h_buf h)) /\ Forall is_byte (pbytes s) /\ Z.of_nat (length (window σ (h_buf h))) = hcap (h_buf h) /\ hlen (h_buf h) <= hcap (h_buf h).
Proof.
  destruct (len_small A σ h o mt HA HG Hbuf Hfit Hwf Hinv) as (H1 & H2 & H3 & H4).
  split_and!; try assumption; [lia|lia|rewrite <- H4, Hbuf; apply good_cells; assumption|apply Hinv|exact (window_len σ _ (proj1 Hwf))|apply (fits_cap A _ HG Hfit)].
Qed.

Lemma positions_60 : forall g, 0 <= g < Z.of_nat (alen mt) -> forall p, ppos s g = Some p -> p <= 2 ^ 60.
Proof. intros g Hg p Hp. destruct Hinv as (_ & _ & _ & _ & _ & H). destruct (H g Hg) as [_ H2]. apply H2, Hp. Qed.

Lemma frame_own grow' T v σ' h' : h_set grow' T σ h f v = Ok (σ', h') -> own_frame σ h σ' h' /\ hwf σ' h'.
Proof. intros E. pose proof (h_set_frame grow' T σ h f v Hwf) as H. rewrite E in H. cbn in H. tauto. Qed.

Lemma pieces_bytely T v tb lb x : in_type T v -> pieces f (wire_of T v) tb lb x -> Forall (Forall is_byte) [tb; lb; x].
Proof.
  intros Hin Hpc. pose proof (pieces_canonical _ _ _ _ _ Hpc (in_type_bytes _ _ Hin)) as [H1 H2]. apply payload_bytes in H2; [|exact mt]. apply Forall_app in H2 as [H2 H3].
  destruct (minimal_small mt _ _ (proj2 H1)) as [_ H4]. repeat constructor; assumption.
Qed.

Theorem set_core T v : in_type T v -> pval_size v < 2 ^ 60 -> exists c r, setting c A o f T v r /\ matches r (h_set grow T σ h f v).
Proof.
  intros Hin Hsz. destruct start as (Hlen & Hsmall & Hbytes & Hcells & HWb & Hbb & HWl & Hlc).
  assert (Hvs : 0 <= pval_size v) by (destruct v as [|?|?|[?|]]; cbn; lia).
  change (2 ^ 60) with 1152921504606846976 in Hsz.
  assert (HM : 2 ^ 60 + mutation_size (PSet f T v) < 2 ^ 62) by (cbn [mutation_size]; change (2 ^ 62) with 4611686018427387904; change (2 ^ 60) with 1152921504606846976; lia).
  assert (HM2 : 2 * 2 ^ 60 + mutation_size (PSet f T v) < 2 ^ 62) by (cbn [mutation_size]; change (2 ^ 62) with 4611686018427387904; change (2 ^ 60) with 1152921504606846976; lia).
  destruct (set_total mt Hn _ _ s T f v Hinv Hf Hin HM) as [r Hr].
  destruct (tag_bytes mt Hn f (wire_of T v) Hf) as (tb & Hput & Htag).
  destruct (set_args_pieces f T v tb Hin) as (vl & x & Ea & Hpc); [pows; lia|exact Htag|].
  pose proof (pieces_bytely T v tb vl x Hin Hpc) as Hpb.
  assert (Htn : tb <> []) by (destruct (minimal_small mt _ _ (proj2 Htag)) as [H _]; intros ->; cbn in H; lia).
  destruct r as [s'| | |].
  - destruct (set_sound mt Hn _ _ s T f v Hinv Hf Hin HM _ Hr) as (m' & Hm & Hinv').
    pose proof (h_set_refines grow T σ h f v Hwf) as Href. rewrite Hm in Href. destruct Href as (σ' & h' & Hcall & Habs & Hwf' & Hown).
    destruct (leaves_total s T f v s' tb vl x (window σ (h_buf h)) Hpc Hin Hr) as (W' & stay & Hlv).
    pose proof Hcall as Hcall2. unfold h_set in Hcall2. rewrite Ea in Hcall2. cbn [rbind] in Hcall2.
    destruct (single_effect mt _ σ h s Hinv Hwf grow f T v (Scratch x) vl tb σ' h' s' W' stay Hf Hin HM I Hput Hpc Hr Hcall2 Hlv) as [[HWl' Hw] Hloc].
    assert (Hb' : sbytes σ' (h_buf h') = pbytes s').
    { destruct Hinv' as (_ & _ & Hb & _). rewrite <- Habs in Hb. exact Hb. }
    assert (HW'b : Forall is_byte W').
    { destruct Hlv as [tb1 lb1 x1 Hpc1 Hp|p tb1 lb1 x1 Hpc1 Hp Hpl Hk|p k tb1 lb1 x1 b e n Hpc1 Hp Hpl Hk Hne Eb Ee Hbe Hel En];
        destruct (pieces_unique _ _ _ _ _ _ _ _ Hpc Hpc1) as (-> & -> & ->).
      - apply added_bytes; assumption.
      - apply put_bytes; [exact HWb|]. apply Forall_take. inversion Hpb as [|? ? _ Hpb2]. inversion Hpb2 as [|? ? G1 Hpb3]. inversion Hpb3. apply Forall_app. auto.
      - apply added_bytes; [|exact Hpb]. apply put_bytes; [exact HWb|apply Forall_drop, Hbb]. }
    destruct (put_back_ok A σ σ' (h_buf h) (h_buf h') W' (pbytes s') stay HA (good_bytely _ HG) Hfit Hw) as (c & A' & P1 & P2 & P3 & P4 & P5).
    { rewrite HWl', <- Hcells, Hbuf. reflexivity. } { exact HW'b. } { apply Hinv'. } { apply Hwf'. } { exact Hb'. }
    { eapply hsetSingle_either. exact Hcall2. } { eapply located_placed; [exact Hloc|apply Hwf'|exact Hb']. }
    exists c, (SetTo A' (become o (h_buf h') (ppos s'))). split.
    { eapply setting_done; [exact Hr|rewrite Hcells; exact Hlv|rewrite Hbuf; exact P1]. }
    exists σ', h'. split; [exact Hcall|]. eapply after_intro; try eassumption; [rewrite Habs; exact Hinv'| |].
    + intros Hpl. eapply sets_bound; [exact Hr|exact Hpl|exact positions_60].
    + intros Hm0 Hl. eapply hsetSingle_short; [exact Hwf|exact Hm0|exact Hcall2|exact Hl].
  - destruct (stretch_sound grow mt _ σ h s f T v Hn Hinv Hwf Hf Hin HM2 HWb Hr) as [[r Hst] Hall]. specialize (Hall _ Hst).
    destruct r as [s'|]; [|exists (0, 0)%nat, SetPanics; split; [apply setting_no_room; [exact Hr|rewrite Hcells; exact Hst]|exact Hall]].
    assert (Hdec : (forall g q, 0 <= g < Z.of_nat (alen mt) -> ppos s' g = Some q -> q < 65535) \/
      exists g q, 0 <= g < Z.of_nat (alen mt) /\ ppos s' g = Some q /\ 65535 <= q).
    { clear. assert (G : forall n : nat, (forall g q, 0 <= g < Z.of_nat n -> ppos s' g = Some q -> q < 65535) \/ exists g q, 0 <= g < Z.of_nat n /\ ppos s' g = Some q /\ 65535 <= q).
      { induction n as [|n [IH|(g & q & H1 & H2 & H3)]]; [left; intros; lia| |right; exists g, q; split_and!; auto; lia].
        destruct (ppos s' (Z.of_nat n)) as [q|] eqn:E.
        - destruct (Z.lt_ge_cases q 65535) as [Hq|Hq]; [left|right; exists (Z.of_nat n), q; split_and!; auto; lia].
          intros g q' Hg Hq'. destruct (Z.eq_dec g (Z.of_nat n)) as [->|]; [congruence|]. apply (IH g); [lia|exact Hq'].
        - left. intros g q' Hg Hq'. destruct (Z.eq_dec g (Z.of_nat n)) as [->|]; [congruence|]. apply (IH g); [lia|exact Hq']. }
      apply G. }
    destruct Hdec as [Hdec|(g & q & G1 & G2 & G3)].
    2: { exists (0, 0)%nat, SetOpen. split; [|exact I]. eapply setting_open; [exact Hr|rewrite Hcells; exact Hst|rewrite Eon; exact G1|exact G2|exact G3]. }
    destruct (Hall Hdec) as (σ' & h' & Hcall & Hinv' & Hwf'). destruct (frame_own _ _ _ _ _ Hcall) as [Hown _].
    assert (Hb' : sbytes σ' (h_buf h') = pbytes s') by (destruct Hinv' as (_ & _ & Hb & _); exact Hb).
    pose proof Hcall as Hcall2. unfold h_set in Hcall2. rewrite Ea in Hcall2. cbn [rbind] in Hcall2.
    inversion Hst as [p k tb1 lb1 x1 b e d Hpc1 Hp Hpl Hk Eb Ee Hbe Ed Hroom Es|]. destruct (pieces_unique _ _ _ _ _ _ _ _ Hpc Hpc1) as (-> & -> & ->).
    pose proof (pinv_range _ _ _ _ _ Hinv Hf) as Hrng. pose proof Hinv as (_ & Howf & _ & _ & _ & Hpos).
    destruct (Hpos f Hf) as [Hof Hpf]. pose proof (offsets_get_eq (hoffs σ h) f Howf Hrng) as Hget. cbn [abs moff] in Hof. rewrite Hof, Hp in Hget. specialize (Hpf p Hp).
    destruct (occupies_old_len mt T v _ _ s p k Hinv ltac:(change (2 ^ 62) with 4611686018427387904; change (2 ^ 60) with 1152921504606846976; lia) Hin ltac:(lia) Hk) as [Hol _]. cbn [abs mbuf] in Hol.
    change (2 ^ 60) with 1152921504606846976 in Hsmall.
    destruct (cut_unfold grow σ h f (wire_type (wire_of T v)) vl p k tb b e (src_len (Scratch x)) (plen s + d) Hwf Hput Hget ltac:(lia) ltac:(change (2 ^ 61) with 2305843009213693952; lia) Hol
      ltac:(cbn [src_len]; unfold zlen; lia) Eb Ee ltac:(lia) ltac:(lia) ltac:(lia) ltac:(lia)) as (r & Hr1 & Hr2).
    rewrite (Hr1 (Scratch x) eq_refl) in Hcall2. destruct r as [[σ2 h2]| | |]; cbn [rbind] in Hcall2; try discriminate.
    specialize (Hr2 _ _ eq_refl). rewrite <- Hlen, <- Hbytes in Hr2.
    set (W := put (window σ (h_buf h)) (Z.to_nat b) (firstn (Z.to_nat (plen s - b)) (skipn (Z.to_nat e) (pbytes s)))) in *.
    assert (HWW : length W = length (window σ (h_buf h))) by (destruct Hr2 as (_ & H & _); unfold zlen in H; lia).
    destruct (hset_new_effect grow σ (h_buf h) σ2 h2 f tb vl (Scratch x) (plen s + d) W σ' h' (proj1 Hwf) Hr2 I Hcall2) as [G1 G2]. cbn [src_bytes] in G1, G2.
    apply placed_located in G2; [|exact Htn|exact HWW].
    destruct (put_back_ok A σ σ' (h_buf h) (h_buf h') (added W (Z.to_nat (plen s + d)) [tb; vl; x]) (pbytes s') (stays (length W - Z.to_nat (plen s + d)) [tb; vl; x]) HA (good_bytely _ HG) Hfit G1) as (c & A' & P1 & P2 & P3 & P4 & P5).
    { rewrite added_length by lia. rewrite HWW, <- Hcells, Hbuf. reflexivity. }
    { apply added_bytes; [|exact Hpb]. apply put_bytes; [exact HWb|apply Forall_take, Forall_drop, Hbb]. }
    { apply Hinv'. } { apply Hwf'. } { exact Hb'. }
    { eapply hsetSingle_either. rewrite (Hr1 (Scratch x) eq_refl). exact Hcall2. } { eapply located_placed; [exact G2|apply Hwf'|exact Hb']. }
    exists c, (SetTo A' (become o (h_buf h') (ppos s'))). split.
    { eapply setting_stretch; [exact Hr|rewrite Hcells; exact Hst|rewrite Eon; exact Hdec| |rewrite Hbuf; exact P1].
      rewrite Hcells. rewrite HWW. eapply leaves_stretch; try eassumption; first [reflexivity|lia]. }
    exists σ', h'. split; [exact Hcall|]. eapply after_intro; try eassumption.
    + intros _ g Hg q Hq. specialize (Hdec g q Hg Hq). change (2 ^ 60) with 1152921504606846976. lia.
    + intros Hm0 Hl. eapply hsetSingle_short; [exact Hwf|exact Hm0|rewrite (Hr1 (Scratch x) eq_refl); exact Hcall2|exact Hl].
  - exists (0, 0)%nat, SetPanics. split; [apply setting_panics, Hr|].
    pose proof (set_sound mt Hn _ _ s T f v Hinv Hf Hin HM _ Hr) as Hm. pose proof (h_set_refines grow T σ h f v Hwf) as Href. rewrite Hm in Href. exact Href.
  - inversion Hr.
Qed.

Theorem set_slice_core a : fits A a -> exists c r, setting_slice c A o f a r /\ matches r (h_set_view grow σ h f a).
Proof.
  intros Ha. destruct start as (Hlen & Hsmall & Hbytes & Hcells & HWb & Hbb & HWl & Hlc).
  pose proof (fits_cap A _ HG Ha) as [Ha1 Ha2]. pose proof (fits_bytes_len A a Ha) as Ha3. 
  set (x0 := bytes_in A a) in *. assert (Hin : in_type PBytes (VBytes (Some x0))) by (apply good_bytes; assumption).
  assert (HM : 2 ^ 60 + mutation_size (PSet f PBytes (VBytes (Some x0))) < 2 ^ 62).
  { cbn [mutation_size pval_size]. unfold zlen. change (2 ^ 62) with 4611686018427387904. change (2 ^ 60) with 1152921504606846976 in *. lia. }
  assert (HM2 : 2 * 2 ^ 60 + mutation_size (PSet f PBytes (VBytes (Some x0))) < 2 ^ 62).
  { cbn [mutation_size pval_size]. unfold zlen. change (2 ^ 62) with 4611686018427387904. change (2 ^ 60) with 1152921504606846976 in *. lia. }
  destruct (set_total mt Hn _ _ s PBytes f (VBytes (Some x0)) Hinv Hf Hin HM) as [r Hr].
  assert (Hpc : exists tb lb, pieces f (WBytes x0) tb lb x0).
  { destruct (view_put A mt a HG Ha) as (lb & _ & Hmin). destruct (tag_bytes mt Hn f (WBytes x0) Hf) as (tb & _ & Htag). exists tb, lb. apply pieces_bytes; auto. }
  destruct Hpc as (tb & lb & Hpc).
  pose proof (pieces_canonical _ _ _ _ _ Hpc ltac:(intros y [= <-]; exact Hin)) as [He1 He2].
  assert (Hreads : exists x, reads_arg A o f a x).
  { inversion Hr as [tb1 db1 He Hp|p tb1 db1 He Hp Hpl Hk|p k tb1 db1 b e He Hp Hpl Hk Hne Eb Ee Hbe Hel|p k tb1 db1 b e He Hp Hpl Hk Hne Eb Ee Hbe|p k tb1 db1 b e He Hp Hpl Hk Hne Eb Ee Hbe|p Hp Hpl];
      try (destruct (enc_unique _ _ _ _ _ _ He He1 He2) as [<- <-]).
    - eexists. eapply reads_first; eassumption.
    - eexists. eapply reads_same; eassumption.
    - eexists. eapply reads_other; try eassumption. reflexivity.
    - subst r. destruct (stretch_sound grow mt _ σ h s f PBytes _ Hn Hinv Hwf Hf Hin HM2 HWb Hr) as [[r Hst] _]. rewrite <- Hcells in Hst.
      destruct r as [s'|]; [|eexists; apply reads_never; right; exact Hst].
      inversion Hst as [p1 k1 tb1 lb1 x1 b1 e1 d1 Hpc1 Hp1 Hpl1 Hk1 Eb1 Ee1 Hbe1 Ed1 Hroom1 Es1|]. cbn [wire_of] in Hpc1.
      destruct (pieces_unique _ _ _ _ _ _ _ _ Hpc Hpc1) as (-> & -> & ->).
      eexists. eapply reads_stretch; try eassumption. reflexivity.
    - eexists. apply reads_never. left. subst r. exact Hr.
    - eexists. apply reads_never. left. subst r. exact Hr. }
  destruct Hreads as [x Hx].
  destruct (reads_arg_sound A σ h o mt a f grow Hn HA HG Hbuf Hfit Hwf Hinv Ha Hf x Hx) as (Hxl & Hxb & E).
  destruct (set_core PBytes (VBytes (Some x)) Hxb) as (c & r' & Hset & Hm).
  { cbn [pval_size]. unfold zlen. change (2 ^ 60) with 1152921504606846976 in *. fold x0 in Hxl. lia. }
  exists c, r'. split; [exists x; split; assumption|]. rewrite E. exact Hm.
Qed.

Theorem append_core a : fits A a -> exists c r, appending c A o f a r /\ matches r (h_append_bytes grow σ h f (View a)).
Proof.
  intros Ha. destruct start as (Hlen & Hsmall & Hbytes & Hcells & HWb & Hbb & HWl & Hlc).
  pose proof (fits_cap A _ HG Ha) as [Ha1 Ha2]. pose proof (fits_bytes_len A a Ha) as Ha3.
  set (x0 := bytes_in A a) in *. 
  destruct (view_put A mt a HG Ha) as (lb & Hlb & Hmin). destruct (tag_bytes mt Hn f (WBytes x0) Hf) as (tb & Hput & Htag). change (wire_type (WBytes x0)) with WireBytes in Hput.
  assert (Hpc : pieces f (WBytes x0) tb lb x0) by (apply pieces_bytes; auto).
  destruct (pieces_tag mt f _ _ _ _ Hpc) as (Htb & Hlbb & Htn).
  assert (Hpn : Z.to_nat (hlen (h_buf h)) = length (pbytes s)) by (rewrite <- Hlen; unfold plen; lia).
  assert (Hcells2 : cells A (h_buf h) = window σ (h_buf h)) by (rewrite <- Hcells, Hbuf; reflexivity).
  set (W1 := added (cells A (h_buf h)) (Z.to_nat (hlen (h_buf h))) [tb; lb]).
  assert (HW1l : length W1 = length (cells A (h_buf h))) by (apply added_length; rewrite Hcells2; lia).
  assert (HW1b : Forall is_byte W1) by (apply added_bytes; [rewrite Hcells2; exact HWb|repeat constructor; assumption]).
  destruct (arg_reads A h mt a HG Hfit Ha W1 HW1l HW1b) as [Hxl Hxb].
  set (x := bytes_in (rewritten A (h_buf h) W1) a) in *. fold x0 in Hxl.
  assert (Hcall0 : h_append_bytes grow σ h f (View a) = h_append_bytes grow σ h f (Scratch x)).
  { unfold h_append_bytes. cbn [src_len]. rewrite Hlb. unfold zlen. rewrite Hxl, Ha3, <- hlen_extent, Hlb. cbn [rbind]. unfold happendSingle. rewrite Hput, !rbind_Ok.
    destruct (h_append grow σ (h_buf h) tb) as [σ1 b1] eqn:E1.
    destruct (offsets_get _ _) as [[off ok]| | |]; cbn [rbind]; try reflexivity.
    destruct (if ok then _ else _) as [oo| | |]; cbn [rbind]; try reflexivity.
    destruct (put_offs σ1 _ oo) as [σ2 h2] eqn:E2. destruct (put_offs_arrs _ _ _ _ _ E2) as [Ea _].
    destruct (h_append grow σ2 b1 lb) as [σ3 b3] eqn:E3.
    assert (Hap : appended grow σ (h_buf h) [tb; lb] σ3 b3) by (eapply appended_cons; [exact E1|exact Ea|eapply appended_cons; [exact E3|reflexivity|constructor]]).
    destruct (placing_start σ h Hwf) as (He & HW & Hp & Hnn).
    destruct (appended_effect _ _ _ _ _ _ _ _ (proj1 Hwf) Hap _ _ He HW Hp Hnn) as [He3 _]. rewrite <- Hcells2 in He3. fold W1 in He3.
    cbn [src_bytes]. unfold x. rewrite (fits_bytes _ σ3 a); [reflexivity|eapply effect_rewritten; eassumption|].
    eapply fits_sizes; [|exact Ha]. apply rewritten_sizes; assumption. }
  assert (HM : 2 ^ 60 + mutation_size (PAppend f x) < 2 ^ 62).
  { cbn [mutation_size]. rewrite Hxl. change (2 ^ 62) with 4611686018427387904. change (2 ^ 60) with 1152921504606846976 in *. fold x0. lia. }
  destruct (append_total mt Hn _ _ s f x Hinv Hf Hxb HM) as [r Happ].
  assert (Hpc2 : pieces f (WBytes x) tb lb x).
  { apply pieces_bytes; [|reflexivity|rewrite Hxl; exact Hmin]. destruct Htag as [H1 H2]. split; [exact H1|exact H2]. }
  assert (exists s', r = Reached s') as [s' ->] by (inversion Happ; eauto).
  destruct (append_sound mt Hn _ _ s f x Hinv Hf Hxb HM _ Happ) as (m' & Hm & Hinv').
  pose proof (h_append_bytes_refines grow σ h f (Scratch x) Hwf I) as Href. cbn [src_bytes] in Href. rewrite Hm in Href. destruct Href as (σ' & h' & Hcall & Habs & Hwf' & Hown).
  assert (Hb' : sbytes σ' (h_buf h') = pbytes s') by (destruct Hinv' as (_ & _ & Hb & _); rewrite <- Habs in Hb; exact Hb).
  pose proof Hcall as Hcall2. unfold h_append_bytes in Hcall2. cbn [src_len] in Hcall2. unfold zlen in Hcall2. rewrite Hxl, Ha3, <- hlen_extent, Hlb in Hcall2. cbn [rbind] in Hcall2.
  destruct (happend_effect grow σ h f WireBytes lb (Scratch x) tb σ' h' Hwf I Hput Hcall2) as [G1 G2]. cbn [src_bytes] in G1, G2.
  apply placed_located in G2; [|exact Htn|reflexivity]. rewrite Hpn in *.
  destruct (put_back_ok A σ σ' (h_buf h) (h_buf h') _ (pbytes s') (stays (length (window σ (h_buf h)) - length (pbytes s)) [tb; lb; x]) HA (good_bytely _ HG) Hfit G1) as (c & A' & P1 & P2 & P3 & P4 & P5).
  { rewrite added_length by lia. rewrite Hcells2. reflexivity. }
  { apply added_bytes; [exact HWb|repeat constructor; assumption]. }
  { apply Hinv'. } { apply Hwf'. } { exact Hb'. } { eapply happendSingle_either. exact Hcall2. } { eapply located_placed; [exact G2|apply Hwf'|exact Hb']. }
  exists c, (SetTo A' (become o (h_buf h') (ppos s'))). split.
  { eapply (appending_done c A o f a tb lb x s'); [exact Hpc| |exact Happ|rewrite Hcells; constructor; exact Hpc2|rewrite Hbuf; exact P1].
    unfold x, W1. rewrite Hpn, Hbuf. unfold state_of. cbn [pbytes]. rewrite Hbuf. reflexivity. }
  exists σ', h'. rewrite Hcall0. split; [exact Hcall|]. eapply after_intro; try eassumption; [rewrite Habs; exact Hinv'| |].
  - intros Hpl. eapply appends_bound; [exact Happ|exact Hpl|exact positions_60].
  - intros Hm0 Hl. eapply happendSingle_short; [exact Hwf|exact Hm0|exact Hcall2|exact Hl].
Qed.
End Core.
