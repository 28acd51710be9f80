(** * Programs over shared memory: every step *)
From Verif Require Import VarintFacts RecFacts Heap HeapApi Core HeapFacts HeapSet HeapExec HeapAlloc HeapStable GetFacts ScanFacts FindFacts.
From Verif Require Import Spec SpecScan SpecFind SpecPos SpecMem Core6 ApiFacts OffsetsFacts PosFacts HeapEffect P_Find P_Pos P_Effect StretchFacts P_Beyond.
From Verif Require Import SpecShare Share ShareFacts ShareArg ShareCore ShareRel.
From Coq Require Import ZifyBool.

Lemma h_get_scalar T σ h f x : is_slice_type T = false -> h_get T σ h f = Ok x -> exists v, x = HVal v.
Proof.
  assert (Hv : forall d k x, Heap.varint_at σ h f d k = Ok x -> exists v, x = HVal v).
  { intros d k y. unfold Heap.varint_at, with_offset. destruct (offsets_get _ _) as [[off ok]| | |]; cbn [rbind]; try discriminate. destruct ok; [|intros [= <-]; eauto].
    destruct (h_from _ _) as [b| | |]; cbn [rbind]; try discriminate. intros [= <-]. eauto. }
  assert (Hf : forall n k x, fixed_at σ h f n k = Ok x -> exists v, x = HVal v).
  { intros n k y. unfold fixed_at, with_offset. destruct (offsets_get _ _) as [[off ok]| | |]; cbn [rbind]; try discriminate. destruct ok; [|intros [= <-]; eauto].
    destruct (h_range _ _ _) as [b| | |]; cbn [rbind]; try discriminate. destruct (k _) as [z| | |]; cbn [rbind]; try discriminate. intros [= <-]. eauto. }
  destruct T; cbn [is_slice_type h_get]; try discriminate; intros _; first [apply Hv|apply Hf].
Qed.

Lemma h_find_where σ t field r d : h_find σ (Some t) field = Ok (r, d) -> exists len lo hi,
  uvarint (sbytes σ (Some t)) = (len, lo) /\ hi = signed64 (lo + len) /\ 0 <= lo <= hi /\ hi <= scap t /\ d = Some (part t lo hi) /\
  (r = None \/ exists i, r = Some (rest_of t i) /\ 0 <= i <= slen t).
Proof.
  unfold h_find. destruct (uvarint (sbytes σ (Some t))) as [len lo]. rewrite i64_add. change (i64 (lo + len)) with (signed64 (lo + len)). cbn [h_range].
  destruct ((0 <=? lo) && (lo <=? signed64 (lo + len)) && (signed64 (lo + len) <=? scap t)) eqn:E; cbn [rbind]; [|discriminate].
  destruct (find_pos _ _ _ _) as [[i|]| | |]; cbn [rbind]; try discriminate.
  - cbn [h_from]. destruct ((0 <=? i) && (i <=? slen t)) eqn:E2; cbn [rbind]; [|discriminate]. intros [= <- <-].
    exists len, lo, (signed64 (lo + len)). split_and!; try reflexivity; try lia. right. exists i. split; [reflexivity|lia].
  - intros [= <- <-]. exists len, lo, (signed64 (lo + len)). split_and!; try reflexivity; try lia. auto.
Qed.

Section Step.
Context (grow : policy) (P : pst) (S : shared).
Hypothesis (HR : rel P S).
Local Notation σ := (p_mem P).
Local Notation A := (sh_arr S).
Local Notation steps a := (exists c r, does c S a r /\ met r (pexec grow P a)).

Lemma window_60 s : fits A s -> Z.of_nat (length (window σ s)) < 2 ^ 62 /\ Forall is_byte (window σ s) /\ cells A s = window σ s.
Proof.
  intros Hf. pose proof HR as (H1 & H2 & _). pose proof (fits_cap A s H2 Hf) as [_ G]. pose proof (fits_cells A σ s H1 Hf) as E. pose proof (fits_cells_len A s Hf) as El. rewrite E in El.
  split_and!; [|rewrite <- E; apply good_cells; assumption|exact E]. change (2 ^ 60) with 1152921504606846976 in G. change (2 ^ 62) with 4611686018427387904. lia.
Qed.

(** The slice of a bytes or string getter. *)
Lemma slice_step h mt o f : o_buf o = h_buf h -> fits A (h_buf h) -> hwf σ h -> pinv mt (2 ^ 60) (abs σ h) (state_of A o) -> 0 <= f < Z.of_nat (alen mt) ->
  exists r, gets_slice A o f r /\
    match r with
    | Some s => fits A s /\ exists q, slice_at σ h f = Ok q /\ default None q = s
    | None => slice_at σ h f = Panic
    end.
Proof.
  intros Eb Hfit Hwf Hinv Hf. pose proof HR as (H1 & H2 & _). pose proof (pinv_range _ _ _ _ _ Hinv Hf) as Hr. pose proof Hinv as (Ht & Howf & Hbuf & Hb & Hl & Hpos).
  destruct (Hpos f Hf) as [Hof Hpf]. cbn [abs moff] in Hof, Howf, Hr. change (ppos (state_of A o)) with (o_pos o) in *. unfold slice_at.
  destruct (o_pos o f) as [p|] eqn:Ep.
  2: { exists (Some None). split; [apply slice_unset, Ep|]. split; [exact I|]. rewrite with_offset_none by assumption. exists None. auto. }
  rewrite (with_offset_some _ _ p) by assumption. specialize (Hpf p eq_refl).
  pose proof (offsets_get_eq (hoffs σ h) f Howf Hr) as Hget. rewrite Hof in Hget. pose proof (get_buf_some _ _ _ _ Hwf Hget) as Hnn.
  destruct (h_buf h) as [t|] eqn:Et; [|done]. cbn [h_from].
  destruct (Z.le_gt_cases p (slen t)) as [Hp|Hp].
  2: { exists None. split; [eapply slice_outside; [exact Ep|rewrite Eb; exact Hp]|]. replace ((0 <=? p) && (p <=? slen t)) with false by lia. reflexivity. }
  replace ((0 <=? p) && (p <=? slen t)) with true by lia. cbn [rbind].
  pose proof (fits_swf A σ _ H1 Hfit) as Hs.
  assert (Esub : sbytes σ (Some (mkSl (sarr t) (soff t + p) (slen t - p) (scap t - p))) = at_pos (bytes_in A (o_buf o)) p).
  { pose proof (h_from_ok σ (Some t) p Hs) as HF. unfold slice_from in HF. rewrite (sbytes_length σ _ Hs) in HF. cbn [hlen h_from] in HF.
    replace ((0 <=? p) && (p <=? slen t)) with true in HF by lia. destruct HF as (d & [= <-] & E & _). rewrite E, Eb, (fits_bytes A σ _ H1 Hfit). reflexivity. }
  rewrite Esub. destruct (uvarint _) as [len n] eqn:Eu.
  assert (Hv : SpecScan.varint_at (at_pos (bytes_in A (o_buf o)) p) len n).
  { apply varint_at_uvarint; [|exact Eu]. apply Forall_drop. rewrite Eb. apply good_bytes; assumption. }
  assert (Elo : u64 (p + u64 n) = (p + n) mod 2 ^ 64) by (unfold u64; rewrite Zplus_mod_idemp_r; reflexivity).
  rewrite Elo. change (u64 ((p + n) mod 2 ^ 64 + len)) with (((p + n) mod 2 ^ 64 + len) mod 2 ^ 64).
  set (lo := (p + n) mod 2 ^ 64). set (hi := (lo + len) mod 2 ^ 64). cbn [h_range].
  assert (Hlo : 0 <= lo) by (apply Z.mod_pos_bound; lia).
  destruct (decide (lo <= hi <= scap t)) as [Hd|Hd].
  - exists (Some (Some (part t lo hi))). split; [eapply slice_found; try eassumption; try reflexivity; rewrite Eb; exact Hp|].
    replace ((0 <=? lo) && (lo <=? hi) && (hi <=? scap t)) with true by lia. cbn [rbind]. split; [apply (sub_fits S); [exact Hfit|lia|lia]|]. eexists. split; reflexivity.
  - exists None. split; [eapply (slice_fails A o f p t len n lo hi); try eassumption; try reflexivity; rewrite Eb; exact Hp|].
    replace ((0 <=? lo) && (lo <=? hi) && (hi <=? scap t)) with false by lia. reflexivity.
Qed.

Lemma step_get i f T : (exists o, sh_objs S !! i = Some o /\ 0 <= f < Z.of_nat (o_n o)) -> steps (AGet i f T).
Proof.
  intros (o & Hi & Hf). destruct (obj_core P S HR i f o Hi Hf) as (mt & h & Hp & Hn & En & Eb & Hfit & Hwf & Hinv & Hsh & Hf').
  exists (0, 0)%nat. destruct (is_slice_type T) eqn:ET.
  - destruct (slice_step h mt o f Eb Hfit Hwf Hinv Hf') as (r & Hg & Hr). destruct r as [s|].
    + destruct Hr as (Hfs & q & Hq & Es). destruct T; try discriminate; eexists; (split; [first [eapply does_get_string|eapply does_get_bytes]; eassumption|]);
        cbn [met pexec]; rewrite Hp; cbn [of_opt rbind h_get]; rewrite Hq; cbn [rbind]; rewrite Es; (eexists; split; [reflexivity|]); intros _; apply step_held; try assumption.
      apply (string_fits S), Hfs.
    + exists Panics. split; [eapply does_get_slice_panics; eassumption|]. cbn [met pexec]. rewrite Hp. cbn [of_opt rbind]. destruct T; try discriminate; cbn [h_get]; rewrite Hr; reflexivity.
  - destruct (window_60 _ Hfit) as (HWl & HWb & Ec).
    destruct (get_in_sound mt _ σ h (state_of A o) T f Hinv Hwf Hf' ltac:(vm_compute; reflexivity) HWb HWl) as [[r Hr] Hall]. specialize (Hall _ Hr).
    rewrite <- Ec, <- Eb in Hr. destruct r as [v|].
    + destruct Hall as (x & Hx & Hv). destruct (h_get_scalar _ _ _ _ _ ET Hx) as [v' ->]. cbn in Hv. subst v'.
      eexists. split; [eapply does_get; eassumption|]. cbn [met pexec]. rewrite Hp. cbn [of_opt rbind]. rewrite Hx. cbn [rbind]. eexists. split; [reflexivity|]. intros _. exact HR.
    + exists Panics. split; [eapply does_get_panics; eassumption|]. cbn [met pexec]. rewrite Hp. cbn [of_opt rbind]. rewrite Hall. reflexivity.
Qed.

Lemma step_iter i f : (exists o, sh_objs S !! i = Some o /\ 0 <= f < Z.of_nat (o_n o)) -> steps (AIter i f).
Proof.
  intros (o & Hi & Hf). destruct (obj_core P S HR i f o Hi Hf) as (mt & h & Hp & Hn & En & Eb & Hfit & Hwf & Hinv & Hsh & Hf').
  exists (0, 0)%nat. pose proof (pinv_range _ _ _ _ _ Hinv Hf') as Hr. pose proof Hinv as (Ht & Howf & Hbuf & Hb & Hl & Hpos).
  destruct (Hpos f Hf') as [Hof Hpf]. cbn [abs moff] in Hof, Howf, Hr. change (ppos (state_of A o)) with (o_pos o) in *.
  destruct (o_pos o f) as [p|] eqn:Ep.
  2: { eexists. split; [eapply does_iter_none; eassumption|]. cbn [met pexec]. rewrite Hp. cbn [of_opt rbind]. unfold h_iter. rewrite with_offset_none by assumption. cbn [rbind].
       eexists. split; [reflexivity|]. intros _. apply step_held; [assumption|exact I]. }
  specialize (Hpf p eq_refl). pose proof (offsets_get_eq (hoffs σ h) f Howf Hr) as Hget. rewrite Hof in Hget. pose proof (get_buf_some _ _ _ _ Hwf Hget) as Hnn.
  destruct (h_buf h) as [t|] eqn:Et; [|done].
  destruct (Z.le_gt_cases p (slen t)) as [Hpl|Hpl].
  - eexists. split; [eapply does_iter; eassumption|]. cbn [met pexec]. rewrite Hp. cbn [of_opt rbind]. unfold h_iter. rewrite (with_offset_some _ _ p) by assumption. rewrite Et. cbn [h_from].
    replace ((0 <=? p) && (p <=? slen t)) with true by lia. cbn [rbind]. eexists. split; [reflexivity|]. intros _. apply step_held; [assumption|]. apply (suffix_fits S); [exact Hfit|lia].
  - exists Panics. split; [eapply does_iter_out; try eassumption; rewrite Eb; exact Hpl|]. cbn [met pexec]. rewrite Hp. cbn [of_opt rbind]. unfold h_iter. rewrite (with_offset_some _ _ p) by assumption. rewrite Et. cbn [h_from].
    replace ((0 <=? p) && (p <=? slen t)) with false by lia. reflexivity.
Qed.

Lemma rel_next k rest d : Forall (fits A) [rest; d] -> rel (mkPst σ (p_objs P) (<[k := rest]> (p_held P) ++ [d])) (mkShared A (sh_objs S) (<[k := rest]> (sh_held S) ++ [d])).
Proof.
  intros Hf. inversion Hf as [|? ? G1 G2]. inversion G2 as [|? ? G3 G4]. subst. pose proof HR as (H1 & H2 & H3 & H4 & H5 & H6). unfold rel. cbn. split_and!; try assumption; [congruence|].
  apply Forall_app. split; [apply Forall_insert; assumption|auto].
Qed.

Lemma step_next k f : is_Some (sh_held S !! k) -> steps (ANext k f).
Proof.
  intros [s Hk]. destruct (held_at P S HR k s Hk) as (Hp & Hf & Hs & Eb & Ec & HWb). exists (0, 0)%nat.
  destruct s as [t|].
  2: { eexists. split; [eapply does_next_nil; exact Hk|]. cbn [met pexec]. rewrite Hp. cbn [of_opt rbind h_find]. eexists. split; [reflexivity|]. intros _.
       rewrite list_insert_id by exact Hp. apply step_held; [assumption|exact I]. }
  destruct (window_60 _ Hf) as (HWl & _ & _).
  destruct (C74_next σ t f Hs HWb HWl) as [[r Hr] Hall]. specialize (Hall _ Hr). rewrite <- Ec, <- Eb in Hr.
  assert (Hby : Forall is_byte (bytes_in A (Some t))) by (apply good_bytes; [apply HR|exact Hf]).
  destruct r as [x rest|x| | |].
  - destruct Hall as (t' & d & Hfd & Hrest & Hx). destruct (h_find_where _ _ _ _ _ Hfd) as (len & lo & hi & Hu & Ehi & Hlo & Hhi & [= ->] & [|(i & [= ->] & Hii)]); [discriminate|].
    assert (Ei : slen t - Z.of_nat (length rest) = i).
    { rewrite <- Hrest. assert (Hsw : swf σ (Some (rest_of t i))) by (eapply fits_swf; [apply HR|apply (suffix_fits S); [exact Hf|lia]]).
      pose proof (sbytes_length σ _ Hsw) as HL. unfold zlen in HL. rewrite HL. cbn. lia. }
    eexists. split; [eapply (does_next_more _ S k f t x rest len lo hi); [exact Hk|exact Hr|apply varint_at_uvarint; [exact Hby|rewrite Eb; exact Hu]|exact Ehi]|].
    cbn [met pexec]. rewrite Hp. cbn [of_opt rbind]. rewrite Hfd, Ei. cbn [rbind]. eexists. split; [reflexivity|]. intros _. apply rel_next.
    repeat constructor; [apply (suffix_fits S); assumption|apply (sub_fits S); assumption].
  - destruct Hall as (d & Hfd & Hx). destruct (h_find_where _ _ _ _ _ Hfd) as (len & lo & hi & Hu & Ehi & Hlo & Hhi & [= ->] & _).
    eexists. split; [eapply (does_next_last _ S k f t x len lo hi); [exact Hk|exact Hr|apply varint_at_uvarint; [exact Hby|rewrite Eb; exact Hu]|exact Ehi]|].
    cbn [met pexec]. rewrite Hp. cbn [of_opt rbind]. rewrite Hfd. cbn [rbind]. eexists. split; [reflexivity|]. intros _. apply rel_next.
    repeat constructor. apply (sub_fits S); assumption.
  - destruct Hall.
  - exists Panics. split; [eapply does_next_panics; eassumption|]. cbn [met pexec]. rewrite Hp. cbn [of_opt rbind]. rewrite Hall. reflexivity.
  - exists Loops. split; [eapply does_next_loops; eassumption|]. cbn [met pexec]. rewrite Hp. cbn [of_opt rbind]. rewrite Hall. reflexivity.
Qed.

(** A struct that has been given the buffer [a]. *)
Lemma rel_given i mt h h' o a σ' pos M : p_objs P !! i = Some (mt, h) -> sh_objs S !! i = Some o -> orel σ A (mt, h) o -> fits A a ->
  map_frame σ h a σ' h' -> hwf σ' h' -> pinv mt M (abs σ' h') (mkP (bytes_in A a) pos) -> M <= 2 ^ 60 ->
  (h_m h = None -> extent a < 65535 -> h_m h' = None) ->
  rel (mkPst σ' (<[i := (mt, h')]> (p_objs P)) (p_held P)) (set_obj S i A (become o a pos)).
Proof.
  intros Hp Hi (E1 & E2 & E3 & E4 & Hf & Hwf & Hsh & Hinv) Hfa (Ear & Ebuf & Hoc & Hmap) Hwf' Hinv' HM Hshort. pose proof HR as (H1 & H2 & _). cbn [fst snd] in *.
  eapply rel_obj; try eassumption; try (rewrite Ear; exact H1); [apply sizes_refl|apply good_bytely, H2|intros a' l; cbn; apply H2| |].
  { intros k m Hk Hne. destruct (Hoc (fun _ _ => False)) as (_ & _ & G & _). apply G; assumption. }
  unfold orel, become. cbn [fst snd o_n o_reps o_buf o_short]. rewrite Ebuf. split_and!; try assumption; try reflexivity.
  - intros E. apply andb_true_iff in E as [G1 G2]. apply Hshort; [auto|lia].
  - eapply pinv_rebound; [exact Hinv'| |].
    + destruct Hinv' as (_ & _ & _ & _ & G & _). unfold state_of. cbn [o_buf o_pos]. lia.
    + intros g Hg p Hpg. destruct Hinv' as (_ & _ & _ & _ & _ & G). destruct (G g Hg) as [_ G2]. specialize (G2 p Hpg). lia.
Qed.

Lemma step_decode i k : is_Some (sh_objs S !! i) -> is_Some (sh_held S !! k) -> steps (ADecode i k).
Proof.
  intros [o Hi] [a Hk]. destruct (obj_at P S HR i o Hi) as (mt & h & Hp & Ho). destruct (held_at P S HR k a Hk) as (Hpk & Hfa & Hs & Eb & Ec & HWb).
  pose proof Ho as (E1 & E2 & E3 & E4 & Hf & Hwf & Hsh & Hinv). cbn [fst snd] in *. pose proof HR as (H1 & H2 & _).
  set (bs := bytes_in A a) in *. assert (Hby : Forall is_byte bs) by (apply good_bytes; assumption).
  pose proof (fits_bytes_len A a Hfa) as Hbl. fold bs in Hbl. pose proof (fits_cap A a H2 Hfa) as [Hc1 Hc2]. change (2 ^ 60) with 1152921504606846976 in Hc2.
  assert (Hl : Z.of_nat (length bs) < 2 ^ 62) by (change (2 ^ 62) with 4611686018427387904; lia).
  pose proof Hinv as (Ht & _). pose proof (h_decode_refines mt σ h a Hwf Hs) as Href. rewrite <- Eb in Href.
  assert (Hshort : forall err σ' h', h_decode mt σ h a = Ok (err, σ', h') -> h_m h = None -> extent a < 65535 -> h_m h' = None).
  { intros err σ' h' E Hm He. unfold h_decode in E. destruct (Decode _ _ _ _) as [[e oo]| | |] eqn:ED; cbn [rbind] in E; try discriminate.
    destruct (put_offs σ (put_buf h a) oo) as [σ2 h2] eqn:EP. injection E as _ _ <-. apply Decode_shrinks in ED; [|rewrite (sbytes_length σ a Hs), hlen_extent; lia].
    unfold shrinks, hoffs in ED. rewrite Hm in ED. cbn in ED. destruct (om oo) eqn:Eo; [done|]. apply (put_offs_none _ _ _ _ _ EP); [exact Hm|exact Eo]. }
  assert (Hgo : forall err m' l, m_Decode mt (abs σ h) bs = Ok (err, m') -> decodes (Z.of_nat (alen mt)) (reps mt) bs (Reached (mkP bs (fun f => recorded (reps mt) f l None))) ->
    exists P', pexec grow P (ADecode i k) = Ok (SawError (match err with Some _ => true | None => false end), P') /\ rel P' (set_obj S i A (become o a (fun f => recorded (o_reps o) f l None)))).
  { intros err m' l Hd Hdec. rewrite Hd in Href. destruct Href as ([[err2 σ'] h'] & Hcall & He & Habs & Hwf' & Hfr). cbn [fst snd] in *. subst err2.
    pose proof (decode_sound mt 0 (abs σ h) bs _ Ht Hby ltac:(lia) ltac:(change (2 ^ 62) with 4611686018427387904; lia) Hdec) as Hag.
    cbn [agrees_with p_step] in Hag. rewrite Hd in Hag. cbn [rbind] in Hag. destruct Hag as (m2 & [= <-] & Hinv'). rewrite <- Habs in Hinv'.
    cbn [pexec]. rewrite Hp, Hpk. cbn [of_opt rbind]. rewrite Hcall. cbn [rbind]. eexists. split; [reflexivity|].
    eapply rel_given; try eassumption; [rewrite E2; exact Hinv'|change (2 ^ 60) with 1152921504606846976; lia|eauto]. }
  exists (0, 0)%nat.
  destruct (scan_total mt (abs σ h) bs Ht Hby Hl) as [(l & m2 & Hw & Hd & _)|[(l & j & l2 & m2 & Hw & He & Hd & _)|[(l & j & Hw & Hfl & Hd)|(x & l1 & l2 & Hw1 & Hw2 & Hne & Hd & _)]]].
  - destruct (Hgo _ _ _ Hd (decodes_all _ _ _ _ Hw)) as (P' & HP & HR'). rewrite Hbl in Hw.
    eexists. split; [eapply does_decode; [exact Hi|exact Hk|rewrite E1; exact Hw]|]. exists P'. split; [exact HP|auto].
  - destruct (Hgo _ _ _ Hd (decodes_part _ _ _ _ _ _ Hw He)) as (P' & HP & HR').
    eexists. split; [eapply does_decode_error; [exact Hi|exact Hk|rewrite E1; exact Hw|rewrite E1; exact He]|]. exists P'. split; [exact HP|auto].
  - exists Panics. split; [eapply does_decode_panics; [exact Hi|exact Hk|rewrite E1, E2; eapply decodes_fails; eassumption]|].
    cbn [met pexec]. rewrite Hp, Hpk. cbn [of_opt rbind]. rewrite Hd in Href. rewrite Href. reflexivity.
  - exists Loops. split; [eapply does_decode_loops; [exact Hi|exact Hk|rewrite E1, E2; eapply decodes_loops; eassumption]|].
    cbn [met pexec]. rewrite Hp, Hpk. cbn [of_opt rbind]. rewrite Hd in Href. rewrite Href. reflexivity.
Qed.

Lemma step_reset i k : is_Some (sh_objs S !! i) -> is_Some (sh_held S !! k) -> steps (AReset i k).
Proof.
  intros [o Hi] [a Hk]. destruct (obj_at P S HR i o Hi) as (mt & h & Hp & Ho). destruct (held_at P S HR k a Hk) as (Hpk & Hfa & Hs & Eb & Ec & HWb).
  pose proof Ho as (E1 & E2 & E3 & E4 & Hf & Hwf & Hsh & Hinv). cbn [fst snd] in *. pose proof HR as (H1 & H2 & _).
  pose proof (fits_bytes_len A a Hfa) as Hbl. pose proof (fits_cap A a H2 Hfa) as [Hc1 Hc2].
  exists (0, 0)%nat. destruct (Z.eq_dec (extent a) 0) as [Hz|Hz].
  - eexists. split; [eapply does_reset; eassumption|]. cbn [met pexec]. rewrite Hp, Hpk. cbn [of_opt rbind].
    assert (Enil : bytes_in A a = []) by (destruct (bytes_in A a); [reflexivity|cbn in Hbl; lia]).
    destruct (step_sound mt E4 _ _ (state_of A o) (PReset []) Hinv) as [_ Hall]; [constructor|cbn; vm_compute; reflexivity|].
    specialize (Hall (Reached pempty) (resets_empty [] eq_refl)). cbn [agrees_with p_step mutation_size] in Hall. destruct Hall as (m' & Hm & Hinv').
    pose proof (h_reset_refines σ h a Hwf Hs) as Href. rewrite <- Eb, Enil, Hm in Href. destruct Href as ([σ' h'] & Hcall & Habs & Hwf' & Hfr). cbn [fst snd] in *.
    rewrite Hcall. cbn [rbind]. eexists. split; [reflexivity|]. intros _. eapply rel_given; try eassumption.
    + rewrite Habs, Enil. exact Hinv'.
    + vm_compute; discriminate.
    + intros Hm0 _. unfold h_reset in Hcall. rewrite hlen_extent, Hz in Hcall. cbn [Z.ltb Z.compare] in Hcall. injection Hcall as Hcall.
      apply (put_offs_none _ _ _ _ _ Hcall); [exact Hm0|]. unfold offsets_clear, hoffs. cbn. rewrite Hm0. reflexivity.
  - exists Panics. split; [eapply does_reset_panics; try eassumption; lia|]. cbn [met pexec]. rewrite Hp, Hpk. cbn [of_opt rbind]. unfold h_reset. rewrite hlen_extent. replace (0 <? extent a) with true by lia. reflexivity.
Qed.

Theorem step a : sensible S a -> steps a.
Proof.
  destruct a; cbn [sensible].
  - apply step_new, HR. - apply step_copy, HR. - apply step_make, HR.
  - intros [H1 H2]. apply step_write; assumption. - intros [H1 H2]. apply step_extend; assumption.
  - apply step_cut, HR. - apply step_look, HR. - intros (H1 & H2 & H3). apply step_set; assumption.
  - intros [H1 H2]. apply step_slice; assumption. - intros [H1 H2]. apply step_append; assumption.
  - apply step_get. - apply step_encode, HR. - intros [H1 H2]. apply step_decode; assumption. - intros [H1 H2]. apply step_reset; assumption.
  - apply step_iter. - apply step_next.
Qed.
End Step.

(** ** Decisions *)
Lemma in_type_dec T v : in_type T v \/ ~ in_type T v.
Proof. destruct T, v as [|?|?|[?|]]; cbn [in_type]; try (right; intros []; fail); try (left; exact I); try lia. all: match goal with |- context [Forall is_byte ?x] => destruct (decide (Forall is_byte x)); auto end. Qed.
Lemma slot_dec S i f : (exists o, sh_objs S !! i = Some o /\ 0 <= f < Z.of_nat (o_n o)) \/ ~ (exists o, sh_objs S !! i = Some o /\ 0 <= f < Z.of_nat (o_n o)).
Proof.
  destruct (sh_objs S !! i) as [o|]; [|right; intros (o & [=] & _)]. destruct (decide (0 <= f < Z.of_nat (o_n o))) as [H|H]; [left; eauto|right; intros (o' & [= <-] & H'); auto].
Qed.
Lemma sensible_dec S a : sensible S a \/ ~ sensible S a.
Proof.
  assert (Hsm : forall {B} (x : option B), is_Some x \/ ~ is_Some x) by (intros B [x|]; [left; eauto|right; intros [y [=]]]).
  assert (Hand : forall Q1 Q2 : Prop, Q1 \/ ~ Q1 -> Q2 \/ ~ Q2 -> (Q1 /\ Q2) \/ ~ (Q1 /\ Q2)) by tauto.
  destruct a; cbn [sensible]; repeat apply Hand; try apply Hsm; try apply slot_dec; try apply in_type_dec; try lia.
  all: match goal with |- ?Q \/ _ => destruct (decide Q); auto end.
Qed.
Lemma modest_dec S : modest S \/ ~ modest S.
Proof. destruct (decide (map_Forall (fun _ l => Z.of_nat (length l) < 2 ^ 60) (sh_arr S))) as [H|H]; [left|right]; exact H. Qed.

(** ** Programs *)
Definition ended (S' : outcome) (r : res pst) : Prop :=
  match S' with
  | Goes S' _ => exists P', r = Ok P' /\ rel P' S'
  | Panics => r = Panic
  | Loops => r = OutOfFuel
  | Open => True
  end.

Lemma programs grow acts : forall P S, rel P S -> exists l r, runs S acts l r /\
  (exists l2, fst (prun grow P acts) = l ++ l2 /\ (r <> Open -> l2 = [])) /\ ended r (snd (prun grow P acts)).
Proof.
  induction acts as [|a acts IH]; intros P S HR.
  - exists [], (Goes S SawNothing). split; [constructor|]. cbn. split; [exists []; auto|eauto].
  - destruct (sensible_dec S a) as [Hs|Hs].
    2: { exists [], Open. split; [apply runs_senseless, Hs|]. split; [|exact I]. eexists. split; [reflexivity|intros []; reflexivity]. }
    destruct (step grow P S HR a Hs) as (c & r & Hd & Hm). destruct r as [S' o| | |]; cbn [met] in Hm.
    + destruct (modest_dec S') as [Hmo|Hmo].
      2: { exists [], Open. split; [eapply runs_full; eassumption|]. split; [|exact I]. eexists. split; [reflexivity|intros []; reflexivity]. }
      destruct Hm as (P' & Hx & HR'). destruct (IH P' S' (HR' Hmo)) as (l & r & Hr & (l2 & Hl & Hl2) & He).
      exists (o :: l), r. split; [eapply runs_step; eassumption|]. cbn [prun]. rewrite Hx. destruct (prun grow P' acts) as [l0 r0]. cbn [fst snd] in *. subst l0. split; [exists l2; auto|exact He].
    + exists [], Panics. split; [eapply runs_stop; [exact Hs|exact Hd|discriminate]|]. cbn [prun]. rewrite Hm. cbn. split; [exists []; auto|reflexivity].
    + exists [], Loops. split; [eapply runs_stop; [exact Hs|exact Hd|discriminate]|]. cbn [prun]. rewrite Hm. cbn. split; [exists []; auto|reflexivity].
    + exists [], Open. split; [eapply runs_stop; [exact Hs|exact Hd|discriminate]|]. split; [|exact I]. eexists. split; [reflexivity|intros []; reflexivity].
Qed.
