(** * Programs over shared memory: the invariant *)
From Verif Require Import VarintFacts RecFacts Heap HeapApi Core HeapFacts HeapSet HeapExec HeapAlloc HeapStable GetFacts ScanFacts FindFacts.
From Verif Require Import Spec SpecScan SpecFind SpecPos SpecMem Core6 ApiFacts OffsetsFacts PosFacts HeapEffect P_Find P_Pos P_Effect StretchFacts P_Beyond.
From Verif Require Import SpecShare Share ShareFacts ShareArg ShareCore.
From Coq Require Import ZifyBool.

Definition orel (σ : mem) (A : arrays) (x : mtype * hmsg) (o : obj) : Prop :=
  o_n o = alen x.1 /\ o_reps o = reps x.1 /\ o_buf o = h_buf x.2 /\ Z.of_nat (alen x.1) <= 2 ^ 29 /\ fits A (h_buf x.2) /\ hwf σ x.2 /\
  (o_short o = true -> h_m x.2 = None) /\ pinv x.1 (2 ^ 60) (abs σ x.2) (state_of A o).

Definition apart_maps (l : list (mtype * hmsg)) : Prop :=
  forall i j x y k, i <> j -> l !! i = Some x -> l !! j = Some y -> h_m x.2 = Some k -> h_m y.2 = Some k -> False.

Definition rel (P : pst) (S : shared) : Prop :=
  sh_arr S ⊆ arrs (p_mem P) /\ good (sh_arr S) /\ p_held P = sh_held S /\ Forall (fits (sh_arr S)) (sh_held S) /\
  Forall2 (orel (p_mem P) (sh_arr S)) (p_objs P) (sh_objs S) /\ apart_maps (p_objs P).

Lemma rel_empty al : rel (p_empty al) sh_empty.
Proof. unfold rel. cbn. split_and!; try done; try constructor. Qed.

(** A struct the step does not concern. *)
Lemma orel_env σ A x o σ' A' : orel σ A x o -> A ⊆ arrs σ -> A' ⊆ arrs σ' -> same_sizes A A' -> bytely A' ->
  (forall k m, h_m x.2 = Some k -> maps σ !! k = Some m -> maps σ' !! k = Some m) -> orel σ' A' x o.
Proof.
  intros (E1 & E2 & E3 & E4 & Hf & Hwf & Hsh & Hinv) HA HA' HS HB Hm. destruct x as [mt h]. cbn [fst snd] in *.
  pose proof (fits_sizes _ _ _ HS Hf) as Hf'. unfold orel. cbn [fst snd]. split_and!; try assumption.
  - destruct Hwf as (_ & H2 & H3). split_and!; [eapply fits_swf; eassumption| |exact H3].
    destruct (h_m h) as [k|]; [|exact I]. destruct H2 as [m H2]. rewrite (Hm k m eq_refl H2). eauto.
  - assert (Ho : hoffs σ' h = hoffs σ h).
    { unfold hoffs. f_equal. destruct Hwf as (_ & H2 & _). destruct (h_m h) as [k|]; [|reflexivity]. destruct H2 as [m H2]. rewrite H2. apply Hm; auto. }
    assert (Hl : plen (state_of A' o) = plen (state_of A o)).
    { unfold plen, state_of. cbn [pbytes]. rewrite E3, !fits_bytes_len by assumption. reflexivity. }
    destruct Hinv as (H1 & H2 & H3 & H4 & H5 & H6). unfold pinv. cbn [abs mbuf moff] in *. rewrite Ho. split_and!; try assumption.
    + cbn. rewrite E3. symmetry. apply fits_bytes; assumption.
    + cbn [state_of pbytes]. rewrite E3. apply Forall_take. destruct (h_buf h) as [t|]; [|constructor]. destruct Hf' as (l & Hl' & _). cbn [cells]. rewrite Hl'. apply Forall_take, Forall_drop, (HB _ _ Hl').
    + rewrite Hl. exact H5.
Qed.

Lemma modest_good A : bytely A -> (forall a l, A !! a = Some l -> Z.of_nat (length l) < 2 ^ 60) -> good A.
Proof. intros H1 H2 a l Ha. split; [apply (H1 _ _ Ha)|apply (H2 _ _ Ha)]. Qed.

Lemma objs_env σ A σ' A' P S : Forall2 (orel σ A) P S -> A ⊆ arrs σ -> A' ⊆ arrs σ' -> same_sizes A A' -> bytely A' -> maps σ' = maps σ -> Forall2 (orel σ' A') P S.
Proof. intros HF HA HA' HS HB Hm. eapply Forall2_impl; [exact HF|]. intros x o Ho. eapply orel_env; try eassumption. intros k m _ Hk. rewrite Hm. exact Hk. Qed.

(** A step of the client's own. *)
Lemma rel_mem P S σ' A' held : rel P S -> A' ⊆ arrs σ' -> same_sizes (sh_arr S) A' -> bytely A' -> maps σ' = maps (p_mem P) ->
  modest (mkShared A' (sh_objs S) held) -> Forall (fits A') held -> rel (mkPst σ' (p_objs P) held) (mkShared A' (sh_objs S) held).
Proof.
  intros (H1 & H2 & H3 & H4 & H5 & H6) HA HS HB Hm Hmo Hh. unfold rel. cbn [sh_arr sh_objs sh_held p_mem p_objs p_held]. split_and!; try assumption; try reflexivity.
  - apply modest_good; assumption.
  - eapply objs_env; eassumption.
Qed.

Lemma held_sizes A A' l : same_sizes A A' -> Forall (fits A) l -> Forall (fits A') l.
Proof. intros HS H. eapply Forall_impl; [exact H|]. intros s. apply fits_sizes, HS. Qed.

(** A step of the struct [i]. *)
Lemma rel_obj P S i mt h h' o o' σ' A' : rel P S -> p_objs P !! i = Some (mt, h) -> sh_objs S !! i = Some o ->
  A' ⊆ arrs σ' -> same_sizes (sh_arr S) A' -> bytely A' -> modest (set_obj S i A' o') ->
  (forall k m, maps (p_mem P) !! k = Some m -> h_m h <> Some k -> maps σ' !! k = Some m) ->
  (forall k, h_m h' = Some k -> h_m h = Some k \/ maps (p_mem P) !! k = None) ->
  orel σ' A' (mt, h') o' ->
  rel (mkPst σ' (<[i := (mt, h')]> (p_objs P)) (p_held P)) (set_obj S i A' o').
Proof.
  intros (H1 & H2 & H3 & H4 & H5 & H6) HP HO HA HS HB Hmo Hm Hm' Ho'. unfold rel, set_obj. cbn [sh_arr sh_objs sh_held p_mem p_objs p_held].
  pose proof (lookup_lt_Some _ _ _ HP) as Hi.
  split_and!; try assumption.
  - apply modest_good; assumption.
  - eapply held_sizes; eassumption.
  - apply Forall2_same_length_lookup. split; [rewrite !insert_length; eapply Forall2_length; eassumption|].
    intros j x y Hx Hy. destruct (decide (i = j)) as [<-|Hij].
    + rewrite list_lookup_insert in Hx by assumption. rewrite list_lookup_insert in Hy by (eapply lookup_lt_Some; eassumption). injection Hx as <-. injection Hy as <-. exact Ho'.
    + rewrite list_lookup_insert_ne in Hx by assumption. rewrite list_lookup_insert_ne in Hy by assumption. eapply (orel_env (p_mem P) (sh_arr S)); [eapply Forall2_lookup_lr; eassumption|assumption..|].
      intros k m Hk Hmk. apply Hm; [exact Hmk|]. intros Hh. eapply (H6 i j (mt, h) x k); eassumption.
  - assert (Hold : forall j x k, j <> i -> p_objs P !! j = Some x -> h_m x.2 = Some k -> h_m h' = Some k -> False).
    { intros j x k Hj Hx Hk Hk'. destruct (Hm' _ Hk') as [E|E]; [eapply (H6 i j (mt, h) x k); eauto|].
      pose proof (Forall2_lookup_l _ _ _ _ _ H5 Hx) as (y & _ & Hy). destruct Hy as (_ & _ & _ & _ & _ & (_ & Hw & _) & _). rewrite Hk, E in Hw. destruct Hw. discriminate. }
    intros j1 j2 x y k Hne Hx Hy Hkx Hky. destruct (decide (i = j1)) as [<-|N1]; [|destruct (decide (i = j2)) as [<-|N2]].
    + rewrite list_lookup_insert in Hx by assumption. injection Hx as <-. rewrite list_lookup_insert_ne in Hy by assumption. eapply Hold; eauto.
    + rewrite list_lookup_insert in Hy by assumption. injection Hy as <-. rewrite list_lookup_insert_ne in Hx by assumption. eapply Hold; eauto.
    + rewrite list_lookup_insert_ne in Hx by done. rewrite list_lookup_insert_ne in Hy by assumption. exact (H6 j1 j2 x y k Hne Hx Hy Hkx Hky).
Qed.

Lemma rel_obj_after P S i mt h h' o o' σ' A' : rel P S -> p_objs P !! i = Some (mt, h) -> sh_objs S !! i = Some o ->
  after (sh_arr S) (p_mem P) h o mt A' o' σ' h' -> modest (set_obj S i A' o') ->
  rel (mkPst σ' (<[i := (mt, h')]> (p_objs P)) (p_held P)) (set_obj S i A' o').
Proof.
  intros HR HP HO (A1 & A2 & A3 & A4 & A5 & A6 & (pos & Eo) & A7 & A8) Hmo. pose proof HR as (H1 & H2 & H3 & H4 & H5 & H6).
  pose proof (Forall2_lookup_lr _ _ _ _ _ _ H5 HP HO) as (E1 & E2 & E3 & E4 & _). cbn [fst snd] in *.
  destruct A6 as ((_ & _ & M1 & _) & _ & M2).
  eapply rel_obj; try eassumption. unfold orel. cbn [fst snd]. split_and!; try assumption; try (rewrite Eo; assumption); [rewrite Eo; reflexivity|].
  apply A8. destruct (h_buf h') as [t|]; cbn [extent]; [|lia]. destruct A4 as (l & Hl & G1 & G2 & G3). specialize (Hmo _ _ Hl). lia.
Qed.

(** What a step comes to. *)
Definition met (S' : outcome) (r : res (SpecShare.seen * pst)) : Prop :=
  match S' with
  | Goes S' o => exists P', r = Ok (o, P') /\ (modest S' -> rel P' S')
  | Panics => r = Panic
  | Loops => r = OutOfFuel
  | Open => True
  end.

Section Step.
Context (grow : policy) (P : pst) (S : shared).
Hypothesis (HR : rel P S).
Local Notation σ := (p_mem P).
Local Notation A := (sh_arr S).
Local Notation steps a := (exists c r, does c S a r /\ met r (pexec grow P a)).

Lemma held_at k s : sh_held S !! k = Some s -> p_held P !! k = Some s /\ fits A s /\ swf σ s /\ bytes_in A s = sbytes σ s /\ cells A s = window σ s /\ Forall is_byte (window σ s).
Proof.
  intros Hk. destruct HR as (H1 & H2 & H3 & H4 & _). rewrite H3. pose proof (Forall_lookup_1 _ _ _ _ H4 Hk) as Hf. split_and!; try assumption.
  - eapply fits_swf; eassumption.
  - apply fits_bytes; assumption.
  - apply fits_cells; assumption.
  - rewrite <- (fits_cells A σ s H1 Hf). apply good_cells; assumption.
Qed.
Lemma obj_at i o : sh_objs S !! i = Some o -> exists mt h, p_objs P !! i = Some (mt, h) /\ orel σ A (mt, h) o.
Proof. intros Hi. destruct HR as (_ & _ & _ & _ & H5 & _). destruct (Forall2_lookup_r _ _ _ _ _ H5 Hi) as ([mt h] & H1 & H2). eauto. Qed.

Lemma step_held s : fits A s -> rel (keep P σ s) (add_held S s).
Proof.
  intros Hs. pose proof HR as (H1 & H2 & H3 & H4 & H5 & H6). unfold rel, keep, add_held. cbn. split_and!; try assumption; [congruence|]. apply Forall_app. auto.
Qed.

Lemma step_new n reps : Z.of_nat n <= 2 ^ 29 -> steps (ANew n reps).
Proof.
  intros Hn. exists (0, 0)%nat. eexists. split; [apply does_new, Hn|]. cbn. eexists. split; [reflexivity|]. intros Hmo.
  pose proof HR as (H1 & H2 & H3 & H4 & H5 & H6). unfold rel. cbn. split_and!; try assumption.
  - apply Forall2_app; [exact H5|]. constructor; [|constructor]. unfold orel. cbn [fst snd o_n o_reps o_buf o_short h_buf h_m alen GenApi.reps]. split_and!; try done.
    + unfold hwf. cbn. split_and!; try done. intros _. apply Forall_replicate. reflexivity.
    + eapply (pinv_rebound _ 0); [apply (pinv_zero (mkMtype n reps))|vm_compute; discriminate|discriminate].
  - intros i j x y k Hij Hx Hy Hkx Hky. rewrite lookup_app_Some in Hx, Hy.
    destruct Hx as [Hx|[_ Hx]]; [|apply list_lookup_singleton_Some in Hx as [_ <-]; discriminate].
    destruct Hy as [Hy|[_ Hy]]; [|apply list_lookup_singleton_Some in Hy as [_ <-]; discriminate]. eapply H6; eassumption.
Qed.

Lemma step_copy i : is_Some (sh_objs S !! i) -> steps (ACopy i).
Proof.
  intros [o Hi]. destruct (obj_at i o Hi) as (mt & h & Hp & Ho). exists (0, 0)%nat. destruct (o_short o) eqn:Es; [|exists Open; split; [eapply does_copy_open; eassumption|exact I]].
  eexists. split; [eapply does_copy; eassumption|]. cbn. rewrite Hp. cbn. eexists. split; [reflexivity|]. intros Hmo.
  pose proof HR as (H1 & H2 & H3 & H4 & H5 & H6). unfold rel. cbn. split_and!; try assumption.
  - apply Forall2_app; [exact H5|]. constructor; [exact Ho|constructor].
  - assert (Hm : h_m h = None) by (destruct Ho as (_ & _ & _ & _ & _ & _ & H & _); auto).
    intros i1 j x y k Hij Hx Hy Hkx Hky. rewrite lookup_app_Some in Hx, Hy.
    destruct Hx as [Hx|[_ Hx]]; [|apply list_lookup_singleton_Some in Hx as [_ <-]; cbn in Hkx; congruence].
    destruct Hy as [Hy|[_ Hy]]; [|apply list_lookup_singleton_Some in Hy as [_ <-]; cbn in Hky; congruence]. eapply H6; eassumption.
Qed.

Lemma step_make bs spare : Forall is_byte bs -> steps (AMake bs spare).
Proof.
  intros Hb. destruct (alloc σ bs spare) as [σ' t] eqn:Ea. destruct (alloc_frame _ _ _ _ _ Ea) as (_ & Hm & _ & _ & Hfr).
  pose proof HR as (H1 & H2 & H3 & H4 & H5 & H6).
  assert (HAn : A !! sarr t = None) by (destruct (A !! sarr t) eqn:E; [|reflexivity]; rewrite (lookup_weaken _ _ _ _ E H1) in Hfr; discriminate).
  assert (Et : t = mkSl (sarr t) 0 (Z.of_nat (length bs)) (Z.of_nat (length bs) + Z.of_nat spare)) by (unfold alloc in Ea; injection Ea as _ <-; reflexivity).
  assert (Eσ : arrs σ' = <[sarr t := bs ++ replicate spare 0]> (arrs σ)) by (unfold alloc in Ea; injection Ea as <- <-; reflexivity).
  exists (sarr t, 0%nat). eexists. split; [apply does_make; assumption|]. cbn [fst]. rewrite <- Et. cbn [met pexec]. rewrite Ea. cbn [rbind].
  eexists. split; [reflexivity|]. intros Hmo. unfold keep. rewrite H3.
  apply rel_mem; try assumption.
  - rewrite Eσ. apply insert_mono, H1.
  - apply sizes_insert, HAn.
  - intros a l. destruct (decide (a = sarr t)) as [->|Hne]; [rewrite lookup_insert; intros [= <-]|rewrite lookup_insert_ne by done; apply good_bytely, H2].
    apply Forall_app. split; [exact Hb|]. apply Forall_replicate. unfold is_byte. lia.
  - apply Forall_app. split; [eapply held_sizes; [apply sizes_insert, HAn|exact H4]|]. constructor; [|constructor]. cbn [fits]. exists (bs ++ replicate spare 0).
    rewrite lookup_insert. split; [reflexivity|]. rewrite Et. cbn. rewrite app_length, replicate_length. lia.
Qed.

Lemma step_write k j b : is_Some (sh_held S !! k) -> is_byte b -> steps (AWrite k j b).
Proof.
  intros [s Hk] Hb. destruct (held_at k s Hk) as (Hp & Hf & Hs & Eb & Ec & HWb). exists (0, 0)%nat.
  pose proof HR as (H1 & H2 & H3 & H4 & H5 & H6).
  destruct (decide (0 <= j < extent s)) as [Hj|Hj].
  - eexists. split; [eapply does_write; eassumption|]. cbn [met pexec]. rewrite Hp. cbn [of_opt rbind]. destruct s as [t|]; [|cbn in Hj; lia]. cbn [extent] in Hj. unfold h_write.
    replace ((0 <=? j) && (j <? slen t)) with true by lia. cbn [rbind]. eexists. split; [reflexivity|]. intros Hmo. rewrite H3.
    pose proof (fits_cells_len A _ Hf) as Hcl. cbn [hcap] in Hcl. assert (Hsc : slen t <= scap t) by (destruct Hf as (l & _ & _ & G & _); lia).
    assert (Hl : length (put (cells A (Some t)) (Z.to_nat j) [b]) = length (cells A (Some t))).
    { rewrite put_overw. apply overw_length. cbn [length]. lia. }
    assert (HS : same_sizes A (rewritten A (Some t) (put (cells A (Some t)) (Z.to_nat j) [b]))) by (apply rewritten_sizes; assumption).
    assert (HG : good (rewritten A (Some t) (put (cells A (Some t)) (Z.to_nat j) [b]))).
    { apply rewritten_good; try assumption. apply put_bytes; [rewrite Ec; exact HWb|repeat constructor; apply Hb]. }
    apply rel_mem; try assumption; [|apply good_bytely, HG|reflexivity|eapply held_sizes; eassumption].
    eapply effect_rewritten; [exact H1|]. rewrite Ec, put_overw. apply effect_write; try assumption; [apply effect_refl, Hs|apply (window_len _ _ Hs)|lia|unfold zlen; cbn; lia].
  - exists Panics. split; [eapply does_write_out; eassumption|]. cbn [met pexec]. rewrite Hp. cbn [of_opt rbind]. destruct s as [t|]; [|reflexivity]. cbn [extent] in Hj. unfold h_write.
    replace ((0 <=? j) && (j <? slen t)) with false by lia. reflexivity.
Qed.

Lemma step_extend k x : is_Some (sh_held S !! k) -> Forall is_byte x -> steps (AExtend k x).
Proof.
  intros [s Hk] Hb. destruct (held_at k s Hk) as (Hp & Hf & Hs & Eb & Ec & HWb). pose proof HR as (H1 & H2 & H3 & H4 & H5 & H6).
  destruct (h_append grow σ s x) as [σ' s'] eqn:Ea. destruct (h_append_ok _ _ _ _ _ _ Hs Ea) as (E1 & Hs' & Hm & E2 & _).
  assert (Hap : appended grow σ s [x] σ' s') by (eapply appended_cons; [exact Ea|reflexivity|constructor]).
  pose proof (window_len σ s Hs) as HWl. pose proof (fits_cap A s H2 Hf) as [Hex _]. rewrite <- hlen_extent in Hex.
  assert (Hat : at_place σ σ s s (Some (hlen s))).
  { destruct s as [t|]; cbn; [|auto]. split; [destruct t; reflexivity|]. cbn in Hex. lia. }
  destruct (appended_effect _ _ _ _ _ _ _ _ Hs Hap _ _ (effect_refl σ s Hs) HWl Hat Hex) as [G1 G2].
  destruct (append_clean _ _ _ _ _ _ Ea) as [_ Hei].
  destruct (put_back_ok A σ σ' s s' (added (window σ s) (Z.to_nat (hlen s)) [x]) (sbytes σ s ++ x) (stays (length (window σ s) - Z.to_nat (hlen s)) [x]) H1 (good_bytely _ H2) Hf G1) as (c & A' & P1 & P2 & P3 & P4 & P5).
  { rewrite added_length by (unfold zlen in HWl; lia). rewrite Ec. reflexivity. }
  { apply added_bytes; [exact HWb|repeat constructor; exact Hb]. }
  { apply Forall_app. split; [rewrite <- Eb; apply good_bytes; assumption|exact Hb]. }
  { exact Hs'. } { exact E1. } { exact Hei. }
  { destruct (stays _ _); cbn [at_place placed_at] in *; [|apply G2]. destruct s as [t|]; [|cbn; apply G2]. destruct G2 as [-> _]. cbn. do 2 f_equal.
    rewrite app_length. pose proof (sbytes_length σ _ Hs) as HL. unfold zlen in *. cbn [hlen] in *. rewrite app_nil_r. cbn [sbytes] in HL. lia. }
  exists c. eexists. split.
  { eapply (does_extend c S k x s _ A' s'); [exact Hk|exact Hb|reflexivity|]. rewrite Ec, Eb, <- hlen_extent. exact P1. }
  cbn [met pexec]. rewrite Hp. cbn [of_opt rbind]. rewrite Ea. eexists. split; [reflexivity|]. intros Hmo. unfold keep. rewrite H3.
  apply rel_mem; try assumption. apply Forall_app. split; [eapply held_sizes; eassumption|auto].
Qed.

Lemma sub_fits t lo hi : fits A (Some t) -> 0 <= lo <= hi -> hi <= scap t -> fits A (Some (part t lo hi)).
Proof. intros (l & Hl & H) H1 H2. exists l. cbn. split; [exact Hl|]. lia. Qed.
Lemma suffix_fits t i : fits A (Some t) -> 0 <= i <= slen t -> fits A (Some (rest_of t i)).
Proof. intros (l & Hl & H) H1. exists l. cbn. split; [exact Hl|]. lia. Qed.
Lemma string_fits s : fits A s -> fits A (option_map as_string s).
Proof. destruct s as [t|]; [|done]. intros (l & Hl & H). exists l. cbn. split; [exact Hl|]. lia. Qed.

Lemma step_cut k lo hi : is_Some (sh_held S !! k) -> steps (ACut k lo hi).
Proof.
  intros [s Hk]. destruct (held_at k s Hk) as (Hp & Hf & Hs & Eb & Ec & HWb). exists (0, 0)%nat. pose proof (fits_cells_len A s Hf) as Hcl.
  destruct s as [t|]; cbn [hcap] in Hcl.
  - destruct (decide (0 <= lo <= hi /\ hi <= scap t)) as [[G1 G2]|G].
    + eexists. split; [eapply does_cut; eassumption|]. cbn [met pexec]. rewrite Hp. cbn [of_opt rbind h_range]. replace ((0 <=? lo) && (lo <=? hi) && (hi <=? scap t)) with true by lia. cbn [rbind].
      eexists. split; [reflexivity|]. intros _. apply step_held, sub_fits; assumption.
    + exists Panics. split; [eapply does_cut_out; [exact Hk|lia]|]. cbn [met pexec]. rewrite Hp. cbn [of_opt rbind h_range]. replace ((0 <=? lo) && (lo <=? hi) && (hi <=? scap t)) with false by lia. reflexivity.
  - destruct (decide (lo = 0 /\ hi = 0)) as [[-> ->]|G].
    + eexists. split; [eapply does_cut_nil; eassumption|]. cbn [met pexec]. rewrite Hp. cbn. eexists. split; [reflexivity|]. intros _. apply step_held. exact I.
    + exists Panics. split; [eapply does_cut_out; [exact Hk|rewrite Hcl; lia]|]. cbn [met pexec]. rewrite Hp. cbn [of_opt rbind h_range]. replace ((lo =? 0) && (hi =? 0)) with false by lia. reflexivity.
Qed.

Lemma step_look k : is_Some (sh_held S !! k) -> steps (ALook k).
Proof.
  intros [s Hk]. destruct (held_at k s Hk) as (Hp & Hf & Hs & Eb & Ec & HWb). exists (0, 0)%nat. eexists. split; [eapply does_look; exact Hk|].
  cbn [met pexec]. rewrite Hp. cbn [of_opt rbind]. rewrite Eb. eexists. split; [reflexivity|]. intros _. exact HR.
Qed.

Lemma step_encode i : is_Some (sh_objs S !! i) -> steps (AEncode i).
Proof.
  intros [o Hi]. destruct (obj_at i o Hi) as (mt & h & Hp & (_ & _ & E & _ & Hf & _)). cbn [fst snd] in *. exists (0, 0)%nat. eexists. split; [eapply does_encode; exact Hi|].
  cbn [met pexec]. rewrite Hp. cbn [of_opt rbind]. rewrite E. eexists. split; [reflexivity|]. intros _. apply step_held, Hf.
Qed.

Lemma obj_core i f o : sh_objs S !! i = Some o -> 0 <= f < Z.of_nat (o_n o) -> exists mt h, p_objs P !! i = Some (mt, h) /\
  Z.of_nat (alen mt) <= 2 ^ 29 /\ o_n o = alen mt /\ o_buf o = h_buf h /\ fits A (h_buf h) /\ hwf σ h /\ pinv mt (2 ^ 60) (abs σ h) (state_of A o) /\
  (o_short o = true -> h_m h = None) /\ 0 <= f < Z.of_nat (alen mt).
Proof.
  intros Hi Hf. destruct (obj_at i o Hi) as (mt & h & Hp & (E1 & E2 & E3 & E4 & Hf' & Hwf & Hsh & Hinv)). cbn [fst snd] in *. exists mt, h. rewrite E1 in Hf. split_and!; try assumption; lia.
Qed.

Lemma step_set i f T v : (exists o, sh_objs S !! i = Some o /\ 0 <= f < Z.of_nat (o_n o)) -> in_type T v -> pval_size v < 2 ^ 60 -> steps (ASet i f T v).
Proof.
  intros (o & Hi & Hf) Hin Hsz. destruct (obj_core i f o Hi Hf) as (mt & h & Hp & Hn & En & Eb & Hfit & Hwf & Hinv & Hsh & Hf').
  pose proof HR as (H1 & H2 & _).
  destruct (set_core A σ h o mt f grow Hn En H1 H2 Eb Hfit Hwf Hinv Hsh Hf' T v Hin Hsz) as (c & r & Hset & Hm). exists c.
  destruct r as [A' o'| |]; cbn [matches] in Hm.
  - eexists. split; [eapply does_set; eassumption|]. cbn [met pexec]. rewrite Hp. cbn [of_opt rbind]. destruct Hm as (σ' & h' & -> & Haf). cbn [rbind].
    eexists. split; [reflexivity|]. intros Hmo. eapply rel_obj_after; eassumption.
  - exists Panics. split; [eapply does_set_panics; eassumption|]. cbn [met pexec]. rewrite Hp. cbn [of_opt rbind]. rewrite Hm. reflexivity.
  - exists Open. split; [eapply does_set_open; eassumption|exact I].
Qed.

Lemma step_slice i f k : (exists o, sh_objs S !! i = Some o /\ 0 <= f < Z.of_nat (o_n o)) -> is_Some (sh_held S !! k) -> steps (ASetSlice i f k).
Proof.
  intros (o & Hi & Hf) [a Hk]. destruct (obj_core i f o Hi Hf) as (mt & h & Hp & Hn & En & Eb & Hfit & Hwf & Hinv & Hsh & Hf').
  destruct (held_at k a Hk) as (Hpk & Hfa & _). pose proof HR as (H1 & H2 & _).
  destruct (set_slice_core A σ h o mt f grow Hn En H1 H2 Eb Hfit Hwf Hinv Hsh Hf' a Hfa) as (c & r & Hset & Hm). exists c.
  destruct r as [A' o'| |]; cbn [matches] in Hm.
  - eexists. split; [eapply does_slice; eassumption|]. cbn [met pexec]. rewrite Hp, Hpk. cbn [of_opt rbind]. destruct Hm as (σ' & h' & -> & Haf). cbn [rbind].
    eexists. split; [reflexivity|]. intros Hmo. eapply rel_obj_after; eassumption.
  - exists Panics. split; [eapply does_slice_panics; eassumption|]. cbn [met pexec]. rewrite Hp, Hpk. cbn [of_opt rbind]. rewrite Hm. reflexivity.
  - exists Open. split; [eapply does_slice_open; eassumption|exact I].
Qed.

Lemma step_append i f k : (exists o, sh_objs S !! i = Some o /\ 0 <= f < Z.of_nat (o_n o)) -> is_Some (sh_held S !! k) -> steps (AAppend i f k).
Proof.
  intros (o & Hi & Hf) [a Hk]. destruct (obj_core i f o Hi Hf) as (mt & h & Hp & Hn & En & Eb & Hfit & Hwf & Hinv & Hsh & Hf').
  destruct (held_at k a Hk) as (Hpk & Hfa & _). pose proof HR as (H1 & H2 & _).
  destruct (append_core A σ h o mt f grow Hn En H1 H2 Eb Hfit Hwf Hinv Hsh Hf' a Hfa) as (c & r & Hset & Hm). exists c.
  inversion Hset as [tb lb x s' W stay A' b G1 G2 G3 G4 G5 E]. subst r. cbn [matches] in Hm.
  eexists. split; [eapply does_append; eassumption|]. cbn [met pexec]. rewrite Hp, Hpk. cbn [of_opt rbind]. destruct Hm as (σ' & h' & -> & Haf). cbn [rbind].
  eexists. split; [reflexivity|]. intros Hmo. eapply rel_obj_after; eassumption.
Qed.
End Step.
