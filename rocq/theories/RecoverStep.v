(** * Recovered panics: every step *)
From Verif Require Import VarintFacts RecFacts Heap HeapApi Core HeapFacts HeapSet HeapExec HeapAlloc HeapStable GetFacts DecodeFacts ScanFacts FindFacts.
From Verif Require Import Spec SpecScan SpecFind SpecPos SpecMem Core6 ApiFacts OffsetsFacts PosFacts HeapEffect P_Find P_Pos P_Effect StretchFacts P_Beyond Demo.
From Verif Require Import SpecShare Share ShareFacts ShareArg ShareCore ShareRel ShareStep ShareSane ShareDet SpecRecover Recover RecoverFacts RecoverSet.
From Verif Require PanicState.
From Coq Require Import ZifyBool.

(** What a setter wrecks depends on the length of the argument only. *)
Lemma pieces_length f x y tb lb : length x = length y -> pieces f (WBytes x) tb lb x -> pieces f (WBytes y) tb lb y.
Proof.
  intros E H. inversion H as [z tb1 lb1 H1 H2 H3|w tb1 db1 H1 H2 H3]; subst; [|cbn in H2; done].
  apply pieces_bytes; [exact H1|reflexivity|rewrite <- E; exact H3].
Qed.

Lemma encodes_length f x y tb db : length x = length y -> Forall is_byte y -> encodes f (WBytes x) tb db -> exists db', encodes f (WBytes y) tb db' /\ length db' = length db.
Proof.
  intros E Hy [H1 (lb & H2 & H3 & H4)]. exists (lb ++ y). split; [split; [exact H1|]|].
  - exists lb. split_and!; [reflexivity|rewrite <- E; exact H3|exact Hy].
  - subst db. rewrite !app_length. lia.
Qed.

Lemma sets_length f x y s r : length x = length y -> Forall is_byte y -> r = OFault \/ r = OBeyond ->
  sets PBytes f (VBytes (Some x)) s r -> sets PBytes f (VBytes (Some y)) s r.
Proof.
  intros E Hy Hr H. inversion H as [? ? ? ? E0|? ? ? ? ? ? ? E0|? ? ? ? ? ? ? ? ? ? ? ? ? ? ? E0|p k tb db b e He Hp Hpl Hk Hne Eb Ee Hbe|p k tb db b e He Hp Hpl Hk Hne Eb Ee Hbe|p Hp Hpl]; subst r; try (destruct Hr; discriminate).
  - destruct (encodes_length f x y tb db E Hy He) as (db' & He' & El). eapply set_stretches; try eassumption. rewrite El. exact Hne.
  - destruct (encodes_length f x y tb db E Hy He) as (db' & He' & El). eapply set_faults; try eassumption. rewrite El. exact Hne.
  - eapply set_outside; eassumption.
Qed.

Lemma wrecks_length A o f x y A' : length x = length y -> Forall is_byte y -> set_wrecks A o f PBytes (VBytes (Some x)) A' -> set_wrecks A o f PBytes (VBytes (Some y)) A'.
Proof.
  intros E Hy H. destruct H as [Hs|p k tb lb x1 b e s Hs Hpc Hp Hpl Hk Eb Ee Hbe Hroom].
  - apply wrecks_nothing. eapply sets_length; eauto.
  - cbn [wire_of] in Hpc. assert (x1 = x) as ->. { inversion Hpc as [? ? ? ? Ex|? ? ? Hw]; [congruence|cbn in Hw; done]. }
    eapply (wrecks_bytes A o f _ _ p k tb lb y b e); try eassumption; [eapply sets_length; eauto|eapply pieces_length; eassumption].
Qed.

Lemma setting_wrecks c A o f T v : setting c A o f T v SetPanics -> exists A', set_wrecks A o f T v A'.
Proof.
  intros H. inversion H as [| |Hs|Hs Hst|]; [eexists; apply wrecks_nothing, Hs|].
  inversion Hst as [|p k tb lb x b e Hpc Hp Hpl Hk Eb Ee Hbe Hroom]. eexists. eapply wrecks_bytes; eassumption.
Qed.

(** Positions recorded by a Decode that panics. *)
Lemma recorded_bound reps f l B : forall cur, Forall (fun x : Z * Z => 0 <= x.2 <= B) l -> (forall p, cur = Some p -> 0 <= p <= B) -> forall p, recorded reps f l cur = Some p -> 0 <= p <= B.
Proof.
  induction l as [|[g q] l IH]; intros cur Hl Hc p; cbn [recorded]; [apply Hc|]. inversion Hl as [|? ? G1 G2]. cbn in G1. apply IH; [exact G2|].
  intros p'. destruct (decide (g = f)); [|apply Hc]. destruct (decide (f ∈ reps)); [destruct cur; [apply Hc|]|]; (destruct (decide (q = 0)); [discriminate|]; intros [= <-]; exact G1).
Qed.
Lemma walk_bound n bs i l j : walk n bs i l j -> Forall (fun x : Z * Z => 0 <= x.2 <= Z.of_nat (length bs)) l.
Proof. induction 1 as [|i f p j l k (tag & s & (_ & m & _ & _ & Hlt) & H & _) _ _ IH]; constructor; [cbn; lia|exact IH]. Qed.
Lemma fails_bound n bs i l : fails_with n bs i l -> Forall (fun x : Z * Z => 0 <= x.2 <= Z.of_nat (length bs)) l.
Proof. destruct 1 as [| |tag p (_ & m & _ & _ & Hlt) Hp]; repeat constructor; cbn; lia. Qed.

Lemma fails_leaves n bs i : fails n bs i -> (exists l, fails_with n bs i l) \/ exists tag p, tag_at bs i tag p /\ p < 0 /\ tag / 8 < n.
Proof.
  intros [H|tag p Ht Hp|tag p Ht Hn|tag p Ht H0 H1 H2 H5].
  - left. eexists. apply fails_here, H.
  - destruct (Z.lt_ge_cases (tag / 8) n); [right; eauto|left; eexists; eapply fails_unknown; eauto].
  - left. eexists. eapply fails_unknown; eassumption.
  - destruct (Z.lt_ge_cases (tag / 8) n); [|left; eexists; eapply fails_unknown; eauto]. destruct (Z.lt_ge_cases p 0); [right; eauto|left; eexists; eapply fails_wire_type; eauto].
Qed.

Section Step.
Context (grow : policy) (P : pst) (S : shared).
Hypothesis (HR : rel P S).
Local Notation σ := (p_mem P).
Local Notation A := (sh_arr S).

(** Something is said about every panic. *)
Lemma behind_total c a : sensible S a -> does c S a Panics -> exists r, leaves_behind S a r.
Proof.
  intros Hs Hd. destruct (harmless a) eqn:Eh; [eexists; apply behind_harmless, Eh|].
  inversion Hd; subst; try discriminate Eh.
  - destruct (setting_wrecks _ _ _ _ _ _ H2) as (A' & Hw). eexists. eapply behind_set; eassumption.
  - destruct (obj_core P S HR i f o H H0) as (mt & h & Hp & Hn & En & Eb & Hfit & Hwf & Hinv & Hsh & Hf').
    destruct (held_at P S HR k a0 H1) as (Hpk & Hfa & _). pose proof HR as (HA & HG & _). destruct H2 as (x & Hx & Hset).
    destruct (reads_arg_sound A σ h o mt a0 f grow Hn HA HG Eb Hfit Hwf Hinv Hfa Hf' x Hx) as (Hxl & _ & _).
    destruct (setting_wrecks _ _ _ _ _ _ Hset) as (A' & Hw). eexists. eapply behind_slice; [eassumption|eassumption|]. eapply wrecks_length; [exact Hxl|apply good_bytes; assumption|exact Hw].
  - inversion H1 as [| |l j Hw Hfl|]. destruct (fails_leaves _ _ _ Hfl) as [[l2 Hfw]|(tag & p & Ht & Hp & Hn)]; eexists; [eapply behind_decode|eapply behind_zero]; eassumption.
Qed.

Lemma rel_wrecked i mt h A' σ' : p_objs P !! i = Some (mt, h) -> A' ⊆ arrs σ' -> maps σ' = maps σ -> same_sizes A A' -> good A' ->
  rel (mkPst σ' (<[i := (mt, h)]> (p_objs P)) (p_held P)) (mkShared A' (sh_objs S) (sh_held S)).
Proof.
  intros Hp HA Hm HS HB. pose proof HR as (H1 & H2 & H3 & H4 & _). rewrite list_insert_id by exact Hp. rewrite H3.
  apply rel_mem; try assumption; [apply good_bytely, HB|intros a l; apply HB|eapply held_sizes; eassumption].
Qed.

Lemma left_set i f T v o A' : sensible S (ASet i f T v) -> sh_objs S !! i = Some o -> set_wrecks A o f T v A' ->
  exists P', rexec grow P (ASet i f T v) = (Panic, P') /\ rel P' (mkShared A' (sh_objs S) (sh_held S)).
Proof.
  intros ((o' & Hi' & Hf) & Hin & Hsz) Hi Hw. assert (o' = o) as -> by congruence. destruct (obj_core P S HR i f o Hi Hf) as (mt & h & Hp & Hn & En & Eb & Hfit & Hwf & Hinv & Hsh & Hf').
  pose proof HR as (HA & HG & _). destruct (tag_bytes mt Hn f (wire_of T v) Hf') as (tb & Hput & Htag).
  destruct (set_args_pieces f T v tb Hin) as (vl & x & Ea & Hpc); [change (2 ^ 60) with 1152921504606846976 in Hsz; pows; lia|exact Htag|].
  destruct (wreck A σ h o mt f grow En HA HG Eb Hfit Hwf Hinv Hsh Hf' T v tb vl x (Scratch x) A' Hin Hsz Hput Hpc eq_refl Hw) as (σ' & E & H1 & H2 & H3 & H4).
  cbn [rexec]. rewrite Hp. unfold r_set. rewrite Ea. cbn [attempt]. rewrite E. cbn [fst snd rbind]. eexists. split; [reflexivity|]. apply rel_wrecked; assumption.
Qed.

Lemma left_slice i f k o a A' : sensible S (ASetSlice i f k) -> sh_objs S !! i = Some o -> sh_held S !! k = Some a -> set_wrecks A o f PBytes (VBytes (Some (bytes_in A a))) A' ->
  exists P', rexec grow P (ASetSlice i f k) = (Panic, P') /\ rel P' (mkShared A' (sh_objs S) (sh_held S)).
Proof.
  intros ((o' & Hi' & Hf) & _) Hi Hk Hw. assert (o' = o) as -> by congruence. destruct (obj_core P S HR i f o Hi Hf) as (mt & h & Hp & Hn & En & Eb & Hfit & Hwf & Hinv & Hsh & Hf').
  destruct (held_at P S HR k a Hk) as (Hpk & Hfa & _). pose proof HR as (HA & HG & _).
  destruct (view_put A mt a HG Hfa) as (lb & Hlb & Hmin). destruct (tag_bytes mt Hn f (WBytes (bytes_in A a)) Hf') as (tb & Hput & Htag).
  assert (Hpc : pieces f (WBytes (bytes_in A a)) tb lb (bytes_in A a)) by (apply pieces_bytes; auto).
  pose proof (fits_cap A _ HG Hfa) as [Ha1 Ha2]. pose proof (fits_bytes_len A a Hfa) as Ha3.
  destruct (wreck A σ h o mt f grow En HA HG Eb Hfit Hwf Hinv Hsh Hf' PBytes (VBytes (Some (bytes_in A a))) tb lb (bytes_in A a) (View a) A') as (σ' & E & H1 & H2 & H3 & H4); try assumption.
  { apply good_bytes; assumption. } { cbn [pval_size]. unfold zlen. lia. } { cbn [src_len]. unfold zlen. rewrite Ha3. apply hlen_extent. }
  cbn [rexec]. rewrite Hp, Hpk. unfold r_set_view. rewrite Hlb. cbn [attempt]. change WireBytes with (wire_type (wire_of PBytes (VBytes (Some (bytes_in A a))))). rewrite E. cbn [fst snd rbind]. eexists. split; [reflexivity|]. apply rel_wrecked; assumption.
Qed.

Lemma left_decode i k o a l j l2 : sh_objs S !! i = Some o -> sh_held S !! k = Some a ->
  walk (Z.of_nat (o_n o)) (bytes_in A a) 0 l j -> fails_with (Z.of_nat (o_n o)) (bytes_in A a) j l2 -> pexec grow P (ADecode i k) = Panic ->
  exists P', rexec grow P (ADecode i k) = (Panic, P') /\ rel P' (set_obj S i A (become o a (fun f => recorded (o_reps o) f (l ++ l2) None))).
Proof.
  intros Hi Hk Hw Hfl HP. destruct (obj_at P S HR i o Hi) as (mt & h & Hp & Ho). destruct (held_at P S HR k a Hk) as (Hpk & Hfa & Hs & Eb & Ec & HWb).
  pose proof Ho as (E1 & E2 & E3 & E4 & Hf & Hwf & Hsh & Hinv). cbn [fst snd] in *. pose proof HR as (H1 & H2 & _).
  set (bs := bytes_in A a) in *. assert (Hby : Forall is_byte bs) by (apply good_bytes; assumption).
  pose proof (fits_bytes_len A a Hfa) as Hbl. fold bs in Hbl. pose proof (fits_cap A a H2 Hfa) as [Hc1 Hc2]. change (2 ^ 60) with 1152921504606846976 in Hc2.
  assert (Hl : zlen bs < 2 ^ 62) by (unfold zlen; change (2 ^ 62) with 4611686018427387904; lia).
  pose proof Hinv as (Ht & _). unfold of_type in Ht. cbn [abs moff] in Ht.
  assert (En : Z.of_nat (o_n o) = zlen (oa (hoffs σ h))) by (unfold zlen; lia). rewrite En in Hw, Hfl.
  cbn [pexec] in HP. rewrite Hp, Hpk in HP. cbn [of_opt rbind] in HP. destruct (r_decode_agrees mt σ h a) as [Hra _].
  assert (HPd : fst (PanicState.p_Decode mt bs ([], hoffs σ h)) = Panic).
  { destruct (h_decode mt σ h a) as [[[e2 σ2] h2]| | |]; cbn [rbind] in HP, Hra; try discriminate. unfold r_decode in Hra. rewrite <- Eb in Hra. destruct (PanicState.p_Decode mt bs ([], hoffs σ h)) as [r [b oo]]. exact Hra. }
  destruct (p_decode_panics (reps mt) bs Hby Hl mt [] (hoffs σ h) l j l2 Hw Hfl eq_refl HPd) as (oo & HD & (Hown & Hlo & Hrec) & Hshr & Hom).
  destruct (offsets_clear_ok (hoffs σ h)) as (_ & Hlc & Hcl & Hcm).
  destruct (put_offs σ (put_buf h a) oo) as [σ' h'] eqn:EP.
  assert (Ho' : is_Some (om (hoffs σ (put_buf h a))) -> is_Some (om oo)).
  { intros H. apply Hom. change (hoffs σ (put_buf h a)) with (hoffs σ h) in H. unfold offsets_clear. destruct (om (hoffs σ h)); cbn; [eauto|destruct H; discriminate]. }
  destruct (put_offs_ok σ (put_buf h a) _ _ _ (proj1 (proj2 Hwf)) Ho' EP) as (Ha2 & Hb2 & Hh2 & Hof2 & Hmm2 & Hfr2 & Hk2). cbn [put_buf h_buf h_m] in Hb2, Hfr2, Hk2.
  assert (Hpos : forall f p, recorded (reps mt) f (l ++ l2) None = Some p -> 0 <= p <= Z.of_nat (length bs)).
  { intros f p Hrp. eapply (recorded_bound _ _ _ (Z.of_nat (length bs)) None); [apply Forall_app; split; [eapply walk_bound; exact Hw|eapply fails_bound; exact Hfl]|discriminate|exact Hrp]. }
  assert (Hbytes : sbytes σ' a = bs).
  { rewrite Eb. destruct a as [t|]; [|reflexivity]. cbn. unfold arr_of. rewrite Ha2. reflexivity. }
  cbn [rexec]. rewrite Hp, Hpk. unfold r_decode. rewrite <- Eb, HD. cbn [fst snd rbind]. rewrite EP. eexists. split; [reflexivity|].
  eapply (rel_given P S HR i mt h h' o a σ' _ (2 ^ 60)); try eassumption.
  - unfold map_frame. split_and!; try assumption.
  - unfold hwf. split_and!; [rewrite Hb2; eapply swf_frame; [apply (Hfr2 (fun _ _ => False))|exact Hs]|exact Hmm2|].
    rewrite Hb2. intros ->. exfalso. assert (Enil : bs = []) by reflexivity. clear - Hw Hfl Enil Hl. 
    inversion Hw as [|i' f' p' j' l' k' (tag & s & ([? Hlt] & _) & _)]; subst; [|rewrite Enil in Hlt; cbn in Hlt; lia].
    destruct Hfl as [|? ? ([? Hlt] & _)|? ? ([? Hlt] & _)]; [lia|rewrite Enil in Hlt; cbn in Hlt; lia..].
  - unfold pinv, plen. cbn [abs mbuf moff pbytes ppos]. fold bs. rewrite Hof2, Hb2. split_and!; try assumption.
    + unfold of_type. cbn [abs moff]. rewrite Hof2. unfold zlen in *. lia.
    + change (2 ^ 60) with 1152921504606846976. lia.
    + intros f Hf'. rewrite E2. assert (Hof : ofun oo f = recorded (reps mt) f (l ++ l2) None) by (rewrite Hrec by (unfold zlen in *; lia); rewrite Hcl; reflexivity).
      split; [exact Hof|]. intros p Hrp. pose proof (Hpos f p Hrp) as Hpp. rewrite Hrp in Hof.
      assert (Hr : in_range oo f) by (unfold in_range, zlen in *; lia). pose proof (ofun_pos _ _ _ Hown Hr Hof). change (2 ^ 60) with 1152921504606846976. lia.
  - lia.
  - intros Hm He. apply (put_offs_none _ _ _ _ _ EP); [exact Hm|]. assert (Hn0 : om (hoffs σ h) = None) by (unfold hoffs; cbn; rewrite Hm; reflexivity).
    specialize (Hshr ltac:(unfold zlen; lia)). unfold shrinks in Hshr. rewrite (Hcm Hn0) in Hshr. destruct (om oo); [done|reflexivity].
Qed.

Theorem left_behind a S' : sensible S a -> pexec grow P a = Panic -> leaves_behind S a (Some S') -> exists P', rexec grow P a = (Panic, P') /\ rel P' S'.
Proof.
  intros Hs HP H. inversion H as [a' Hh|i f T v o A' Hi Hw|i f k o s A' Hi Hk Hw|i k o s l j l2 Hi Hk Hw Hfl|]; subst.
  - exists P. split; [|exact HR]. destruct a; try discriminate Hh; cbn [rexec]; rewrite HP; reflexivity.
  - eapply left_set; eassumption.
  - eapply left_slice; eassumption.
  - eapply left_decode; eassumption.
Qed.
End Step.

(** ** Programs *)
Lemma rprograms grow acts : forall P S, rel P S -> exists l r, recovers S acts l r /\
  (exists l2, fst (rrun grow P acts) = l ++ l2 /\ (r <> Open -> l2 = [])) /\ ended r (snd (rrun grow P acts)).
Proof.
  induction acts as [|a acts IH]; intros P S HR.
  - exists [], (Goes S SawNothing). split; [constructor|]. cbn. split; [exists []; auto|eauto].
  - assert (Hopen : forall l, recovers S (a :: acts) l Open -> (exists l2, fst (rrun grow P (a :: acts)) = l ++ l2) -> exists l r, recovers S (a :: acts) l r /\
      (exists l2, fst (rrun grow P (a :: acts)) = l ++ l2 /\ (r <> Open -> l2 = [])) /\ ended r (snd (rrun grow P (a :: acts)))).
    { intros l H (l2 & E). exists l, Open. split; [exact H|]. split; [|exact I]. exists l2. split; [exact E|]. intros Hne. contradiction. }
    destruct (sensible_dec S a) as [Hs|Hs]; [|apply (Hopen []); [apply recovers_senseless, Hs|eexists; reflexivity]].
    destruct (ShareStep.step grow P S HR a Hs) as (c & r & Hd & Hm). destruct (rexec_pexec grow P a) as [Hx1 Hx2]. destruct r as [S' o| | |]; cbn [met] in Hm.
    + destruct (modest_dec S') as [Hmo|Hmo]; [|apply (Hopen []); [eapply recovers_full; eassumption|eexists; reflexivity]].
      destruct Hm as (P' & Hx & HR'). destruct (IH P' S' (HR' Hmo)) as (l & r & Hr & (l2 & Hl & Hl2) & He). specialize (Hx2 _ _ Hx). rewrite Hx in Hx1. cbn [rbind] in Hx1.
      exists (Some o :: l), r. split; [eapply recovers_step; eassumption|]. cbn [rrun]. destruct (rexec grow P a) as [ro P1]. cbn [fst snd] in Hx1, Hx2. subst ro P1.
      destruct (rrun grow P' acts) as [l0 r0]. cbn [fst snd] in *. subst l0. split; [exists l2; auto|exact He].
    + rewrite Hm in Hx1. cbn [rbind] in Hx1. destruct (behind_total grow P S HR c a Hs Hd) as ([S'|] & Hb).
      * destruct (left_behind grow P S HR a S' Hs Hm Hb) as (P' & Hx & HR'). destruct (IH P' S' HR') as (l & r & Hr & (l2 & Hl & Hl2) & He).
        exists (None :: l), r. split; [eapply recovers_panic; eassumption|]. cbn [rrun]. rewrite Hx. destruct (rrun grow P' acts) as [l0 r0]. cbn [fst snd] in *. subst l0. split; [exists l2; auto|exact He].
      * apply (Hopen [None]); [eapply recovers_unsaid; eassumption|]. cbn [rrun]. destruct (rexec grow P a) as [ro P1]. cbn [fst] in Hx1. subst ro. destruct (rrun grow P1 acts) as [l0 r0]. cbn. eexists. reflexivity.
    + exists [], Loops. split; [eapply recovers_loops; eassumption|]. rewrite Hm in Hx1. cbn [rbind] in Hx1. cbn [rrun]. destruct (rexec grow P a) as [ro P1]. cbn [fst] in Hx1. subst ro. cbn. split; [exists []; auto|reflexivity].
    + apply (Hopen []); [eapply recovers_open; eassumption|eexists; reflexivity].
Qed.

(** ** What is said about a panic *)
Lemma fails_with_fails n bs i l : fails_with n bs i l -> fails n bs i.
Proof. intros [H|tag p Ht Hn|tag p Ht Hp Hn H0 H1 H2 H5]; [apply fails_before, H|eapply fails_field; eassumption|eapply fails_type; eassumption]. Qed.

Lemma fails_with_det n bs i l l' : Forall is_byte bs -> fails_with n bs i l -> fails_with n bs i l' -> l = l'.
Proof.
  intros Hb [H|tag p Ht Hn|tag p Ht Hp Hn H0 H1 H2 H5] [H'|tag' p' Ht' Hn'|tag' p' Ht' Hp' Hn' H0' H1' H2' H5']; try reflexivity;
    try (destruct (tag_det _ Hb _ _ _ _ _ Ht Ht') as [<- <-]); try reflexivity; try lia.
  - destruct Ht' as [? _]. lia.
  - destruct Ht as [? _]. lia.
Qed.

Lemma wrecks_det A o f T v A1 A2 : good A -> sane_obj A o -> set_wrecks A o f T v A1 -> set_wrecks A o f T v A2 -> A1 = A2.
Proof.
  intros HG Ho H1 H2. destruct (state_facts A o HG Ho) as (Hb & _). pose proof (sets_det T f v (state_of A o) Hb) as D.
  destruct H1 as [S1|p k tb lb x b e s S1 Hpc Hp Hpl Hk Eb Ee Hbe Hroom], H2 as [S2|p2 k2 tb2 lb2 x2 b2 e2 s2 S2 Hpc2 Hp2 Hpl2 Hk2 Eb2 Ee2 Hbe2 Hroom2]; try reflexivity;
    try (specialize (D _ _ S1 S2); discriminate).
  subst s s2. assert (p2 = p) as -> by congruence. destruct (pieces_unique _ _ _ _ _ _ _ _ Hpc Hpc2) as (-> & -> & ->). rewrite (occupies_det _ _ _ _ _ Hb Hk2 Hk) in *. subst. reflexivity.
Qed.

Theorem behind_det S a r r' : sane S -> leaves_behind S a r -> leaves_behind S a r' -> r = r'.
Proof.
  intros (HG & HH & HO) H1 H2.
  assert (Hob : forall i o, sh_objs S !! i = Some o -> sane_obj (sh_arr S) o) by (intros i o; apply (Forall_lookup_1 _ _ _ _ HO)).
  assert (Hst : forall k a, sh_held S !! k = Some a -> Forall is_byte (bytes_in (sh_arr S) a)).
  { intros k a0 Hk. apply good_bytes; [exact HG|]. exact (Forall_lookup_1 _ _ _ _ HH Hk). }
  destruct H1 as [a Hh|i f T v o A' Hi Hw|i f k o s A' Hi Hk Hw|i k o s l j l2 Hi Hk Hw Hf|i k o s l j tag p Hi Hk Hw Ht Hp Hn]; inversion H2 as [a2 Hh2|i2 f2 T2 v2 o2 A2 Hi2 Hw2|i2 f2 k2 o2 s2 A2 Hi2 Hk2 Hw2|i2 k2 o2 s2 m j2 m2 Hi2 Hk2 Hw2 Hf2|i2 k2 o2 s2 m j2 tag2 p2 Hi2 Hk2 Hw2 Ht2 Hp2 Hn2]; subst; try discriminate; try reflexivity;
    assert (o2 = o) as -> by congruence; try (assert (s2 = s) as -> by congruence).
  - rewrite (wrecks_det _ _ _ _ _ _ _ HG (Hob _ _ Hi) Hw Hw2). reflexivity.
  - rewrite (wrecks_det _ _ _ _ _ _ _ HG (Hob _ _ Hi) Hw Hw2). reflexivity.
  - pose proof (Hst _ _ Hk) as Hb. destruct (walk_stuck _ _ Hb _ _ _ _ _ Hw Hw2) as [<- <-]; [apply stuck_fails; [exact Hb|eapply fails_with_fails; eassumption]..|].
    rewrite (fails_with_det _ _ _ _ _ Hb Hf Hf2). reflexivity.
  - exfalso. pose proof (Hst _ _ Hk) as Hb. destruct (walk_stuck _ _ Hb _ _ _ _ _ Hw Hw2) as [<- <-]; [apply stuck_fails; [exact Hb|eapply fails_with_fails; eassumption]|apply stuck_fails; [exact Hb|eapply fails_tag_before; eassumption]|].
    destruct Hf as [H|tag p Ht Hn|tag p Ht Hp Hn H0 H3 H4 H5]; [destruct Ht2 as [? _]; lia|destruct (tag_det _ Hb _ _ _ _ _ Ht Ht2) as [<- <-]; lia..].
  - exfalso. pose proof (Hst _ _ Hk) as Hb. destruct (walk_stuck _ _ Hb _ _ _ _ _ Hw Hw2) as [<- <-]; [apply stuck_fails; [exact Hb|eapply fails_tag_before; eassumption]|apply stuck_fails; [exact Hb|eapply fails_with_fails; eassumption]|].
    destruct Hf2 as [H|tag2 p2 Ht2 Hn2|tag2 p2 Ht2 Hp2 Hn2 H0 H3 H4 H5]; [destruct Ht as [? _]; lia|destruct (tag_det _ Hb _ _ _ _ _ Ht Ht2) as [<- <-]; lia..].
Qed.

Theorem behind_sane S a S' : sane S -> leaves_behind S a (Some S') -> sane S' /\ modest S'.
Proof.
  intros HS H. assert (Hmod : modest S) by (intros x l; apply HS). pose proof HS as (HG & HH & HO).
  assert (Hw : forall i f T v o A', sh_objs S !! i = Some o -> set_wrecks (sh_arr S) o f T v A' -> sane (mkShared A' (sh_objs S) (sh_held S)) /\ modest (mkShared A' (sh_objs S) (sh_held S))).
  { intros i f T v o A' Hi Hw. pose proof (Forall_lookup_1 _ _ _ _ HO Hi) as Ho. destruct (state_facts _ o HG Ho) as (Hb & Hc & Hpl & Hpl0 & Hle).
    assert (HA : good A' /\ same_sizes (sh_arr S) A').
    { destruct Hw as [_|p k tb lb x b e s Hs Hpc Hp Hp2 Hk Eb Ee Hbe Hroom]; [split; [exact HG|apply sizes_refl]|]. subst s.
      assert (Hlen : length (put (cells (sh_arr S) (o_buf o)) (Z.to_nat b) (firstn (Z.to_nat (plen (state_of (sh_arr S) o) - b)) (skipn (Z.to_nat e) (pbytes (state_of (sh_arr S) o))))) = length (cells (sh_arr S) (o_buf o))).
      { apply put_length. rewrite take_length, drop_length. unfold plen in *. lia. }
      split; [|apply rewritten_sizes; [apply Ho|exact Hlen]]. apply rewritten_good; try assumption; [apply Ho|]. apply put_bytes; [exact Hc|apply Forall_take, Forall_drop, Hb]. }
    destruct HA as [HA HSz]. assert (Hm' : modest (mkShared A' (sh_objs S) (sh_held S))) by (intros y l; apply HA). split; [|exact Hm'].
    apply sane_grow; try assumption; [apply good_bytely, HA|eapply held_sizes; eassumption]. }
  inversion H as [a' Hh|i f T v o A' Hi Hs|i f k o s A' Hi Hk Hs|i k o s l j l2 Hi Hk Hwk Hfl|]; subst; try (eapply Hw; eassumption); [auto|].
  assert (Hmo : modest (set_obj S i (sh_arr S) (become o s (fun f => recorded (o_reps o) f (l ++ l2) None)))) by exact Hmod.
  split; [|exact Hmo]. apply sane_given; [exact HS|exact (Forall_lookup_1 _ _ _ _ HH Hk)| |exact Hmo].
  intros f p Hp. eapply (recorded_bound _ _ _ (Z.of_nat (length (bytes_in (sh_arr S) s))) None); [apply Forall_app; split; [eapply walk_bound; exact Hwk|eapply fails_bound; exact Hfl]|discriminate|exact Hp].
Qed.

Theorem reach_r_sane S : reach_r S -> sane S.
Proof.
  induction 1 as [|c S a S' o _ IH Hse Hd Hmo|c S a S' _ IH Hse Hd Hb]; [apply reach_sane, reach_start|eapply sane_step; eassumption|apply (behind_sane _ _ _ IH Hb)].
Qed.
