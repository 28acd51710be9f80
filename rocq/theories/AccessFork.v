(** * Goroutines after a common beginning *)
From Verif Require Import GoBase Heap HeapFacts Recover RecoverFacts SpecShare.
From Verif Require Import Access AccessFacts AccessApi AccessMem AccessObj AccessSet AccessRun SpecGo.

(** ** Which choices of the allocator a run depends on *)
Lemma pick_same f g d : f d = g d -> pick f d = pick g d.
Proof. Transparent pick. unfold pick. intros ->. reflexivity. Opaque pick. Qed.

Lemma run_dom {A} al RO (p : prog A) : forall T r T', run al RO T p = Some (r, T') -> dom T ⊆ dom T'.
Proof.
  induction p as [r0|l k IH|l w k IH|kd n k IH]; intros T r T'; cbn [run].
  - intros [= -> ->]. reflexivity.
  - destruct (T !! l); [apply IH|discriminate].
  - destruct (T !! l); [|discriminate]. destruct (decide _); [discriminate|]. intros H. apply IH in H. rewrite dom_insert_L in H. set_solver.
  - intros H. apply IH in H. rewrite dom_union_L in H. set_solver.
Qed.
Lemma run_before {A} al al' RO (p : prog A) : forall T r T',
  (forall kd d, d ⊂ ids kd T' -> al kd d = al' kd d) -> run al RO T p = Some (r, T') -> run al' RO T p = Some (r, T').
Proof.
  induction p as [r0|l k IH|l w k IH|kd n k IH]; intros T r T' Ha; cbn [run].
  - auto.
  - destruct (T !! l); [apply IH; exact Ha|discriminate].
  - destruct (T !! l); [|discriminate]. destruct (decide _); [discriminate|]. apply IH. exact Ha.
  - intros H. rewrite <- (pick_same (al kd) (al' kd)); [apply IH; assumption|]. apply Ha.
    pose proof (run_dom _ _ _ _ _ _ H) as Hd. pose proof (ids_mono kd _ _ Hd) as Hi. rewrite ids_new in Hi.
    pose proof (pick_fresh (al kd) (ids kd T)). split; [set_solver|]. intros Hs. set_solver.
Qed.
Lemma run_after {A} al al' RO (p : prog A) : forall T,
  (forall kd d, ids kd T ⊆ d -> al kd d = al' kd d) -> run al RO T p = run al' RO T p.
Proof.
  induction p as [r0|l k IH|l w k IH|kd n k IH]; intros T Ha; cbn [run].
  - reflexivity.
  - destruct (T !! l); [apply IH; exact Ha|reflexivity].
  - destruct (T !! l) eqn:E; [|reflexivity]. destruct (decide _); [reflexivity|]. apply IH. intros kd d. rewrite ids_insert by eauto. apply Ha.
  - rewrite (pick_same (al kd) (al' kd)) by (apply Ha; reflexivity). apply IH. intros kd' d Hd. apply Ha. etransitivity; [|exact Hd].
    apply ids_mono. rewrite dom_union_L. set_solver.
Qed.

(** Every number in use is known to be. *)
Definition marked (T : heap) : Prop := forall kd id, id ∈ ids kd T -> Made kd id ∈ dom T.
Lemma new_made kd n id : Made kd id ∈ dom (new_cells kd n id).
Proof. apply elem_of_dom. unfold new_cells, new_list. rewrite list_to_map_cons, lookup_insert. eauto. Qed.
Lemma run_marked {A} al RO (p : prog A) : forall T r T', marked T -> run al RO T p = Some (r, T') -> marked T'.
Proof.
  induction p as [r0|l k IH|l w k IH|kd n k IH]; intros T r T' HM; cbn [run].
  - intros [= -> ->]. exact HM.
  - destruct (T !! l); [apply IH; exact HM|discriminate].
  - destruct (T !! l) eqn:E; [|discriminate]. destruct (decide _); [discriminate|]. apply IH. intros kd id. rewrite ids_insert by eauto. rewrite dom_insert_L. intros H. apply elem_of_union_r, HM, H.
  - apply IH. intros kd' id. rewrite dom_union_L. destruct (decide (kd = kd')) as [->|Hne].
    + rewrite ids_new. intros [->%elem_of_singleton|H]%elem_of_union; [apply elem_of_union_l, new_made|apply elem_of_union_r, HM, H].
    + rewrite ids_new_other by exact Hne. intros H. apply elem_of_union_r, HM, H.
Qed.

(** ** Programs one after the other *)
Lemma rrun_app grow P acts1 acts2 :
  Recover.rrun grow P (acts1 ++ acts2) =
  match Recover.rrun grow P acts1 with
  | (l, Ok P') => let '(l2, r) := Recover.rrun grow P' acts2 in (l ++ l2, r)
  | (l, r) => (l, r)
  end.
Proof.
  revert P. induction acts1 as [|a acts IH]; intros P; cbn [app Recover.rrun].
  - destruct (Recover.rrun grow P acts2) as [l r]. reflexivity.
  - destruct (Recover.rexec grow P a) as [[o| | |] P']; try reflexivity; rewrite IH; destruct (Recover.rrun grow P' acts) as [l [P2| | |]]; try reflexivity;
      destruct (Recover.rrun grow P2 acts2); reflexivity.
Qed.

(** ** The beginning *)
Definition no_regs : regs := mkRegs [] [].
Definition allocator_of (al : kind -> gset nat -> nat) : allocator := mkAllocator (al KArray) (al KMap).
Definition all : nat -> Prop := fun _ => True.

Lemma ids_empty kd : ids kd ∅ = ∅.
Proof. unfold ids. rewrite dom_empty_L, elements_empty. reflexivity. Qed.
Lemma holds_empty al US UH : holds al ∅ no_regs US UH ∅ no_regs (p_empty (allocator_of al)).
Proof.
  split_and!; cbn [p_mem p_objs p_held no_regs objs held p_empty].
  - split; cbn [arrs maps chooser].
    + reflexivity.
    + rewrite ids_empty, dom_empty_L. reflexivity.
    + rewrite ids_empty, dom_empty_L. reflexivity.
    + intros a j w H. rewrite lookup_empty in H. discriminate.
    + intros l w H. rewrite lookup_empty in H. discriminate.
    + set_solver.
  - reflexivity.
  - intros i x y H. rewrite lookup_nil in H. discriminate.
  - constructor.
  - reflexivity.
  - intros k s H. rewrite lookup_nil in H. discriminate.
Qed.
Lemma newer_empty : newer ∅ no_regs no_regs.
Proof. intros i x H. left. exact H. Qed.
Lemma allowed_empty US UH P a : allowed ∅ no_regs US UH P a.
Proof.
  assert (U : forall i, usable no_regs US i) by (intros i; right; cbn; lia).
  assert (V : forall i, visible no_regs UH i) by (intros i; right; cbn; lia).
  assert (B : forall i, free_buffer ∅ P i) by (intros i mt h _ a0 j _; set_solver).
  assert (F : forall i, free_struct ∅ no_regs i) by (intros i mt o _ l _; set_solver).
  assert (Tb : forall i, free_table ∅ P i) by (intros i mt h l _ _; set_solver).
  destruct a; cbn [allowed]; auto; split; auto; intros ? _ ? ? _; set_solver.
Qed.
Lemma keeps_empty grow US UH acts : forall P, keeps ∅ no_regs US UH grow P acts.
Proof.
  induction acts as [|a acts IH]; intros P; cbn [keeps]; [exact I|]. split; [apply allowed_empty|]. destruct (Recover.rexec _ P a) as [[]]; auto.
Qed.
Lemma begin_ok more grow al setup obs R G :
  run al ∅ ∅ (c_client more grow no_regs setup) = Some (Ok (obs, R), G) ->
  exists P, Recover.rrun (lift_grow grow) (p_empty (allocator_of al)) setup = (obs, Ok P) /\ holds al ∅ no_regs all all G R P.
Proof.
  intros E. pose proof (client_ok al ∅ no_regs all all more grow setup ∅ no_regs _ (holds_empty al all all) newer_empty (keeps_empty grow all all setup _)) as H.
  unfold wp in H. rewrite E in H. cbv zeta in H. destruct (Recover.rrun _ _ setup) as [l [P| | |]]; cbn [fst snd] in H; try discriminate; [|contradiction].
  destruct H as (R' & [= <- <-] & H & _). eauto.
Qed.

(** ** Goroutines *)

Definition known (owner : owners) (i : nat) (G : heap) : heap := filter (fun x => may_read owner i x.1) G.
Definition shared (owner : owners) (G : heap) : gset loc := dom (filter (fun x => owner x.1 = None) G).

(** Goroutine [i] may read all that belongs to the structs [US] and slices [UH]. *)
Definition within (owner : owners) (i : nat) (R : regs) (P : pst) (US UH : nat -> Prop) : Prop :=
  (forall j mt o h, US j -> objs R !! j = Some (mt, o) -> p_objs P !! j = Some (mt, h) ->
     (forall l, part_of l = Some o -> may_read owner i l) /\
     (forall a b, in_window (h_buf h) a b -> may_read owner i (Byte a b)) /\
     (forall t, h_m h = Some t -> may_read owner i (Table t))) /\
  (forall k s a b, UH k -> held R !! k = Some s -> in_window s a b -> may_read owner i (Byte a b)).

Lemma known_lookup owner i G l w : known owner i G !! l = Some w <-> G !! l = Some w /\ may_read owner i l.
Proof. unfold known. rewrite map_filter_lookup_Some. reflexivity. Qed.
Lemma known_dom owner i G l : l ∈ dom (known owner i G) <-> l ∈ dom G /\ may_read owner i l.
Proof. rewrite !elem_of_dom. unfold is_Some. setoid_rewrite known_lookup. naive_solver. Qed.
Lemma shared_dom owner G l : l ∈ shared owner G <-> l ∈ dom G /\ owner l = None.
Proof. unfold shared. rewrite !elem_of_dom. unfold is_Some. setoid_rewrite map_filter_lookup_Some. naive_solver. Qed.

Lemma known_ids owner i G kd : marked G -> (forall k id, owner (Made k id) = None) -> ids kd (known owner i G) = ids kd G.
Proof.
  intros HM Ho. apply leibniz_equiv. intros x. split.
  - apply ids_mono. intros l Hl. apply known_dom in Hl. tauto.
  - intros Hx. apply HM in Hx. eapply (elem_ids_dom _ _ (Made kd x)); [|reflexivity]. apply known_dom. split; [exact Hx|]. left. apply Ho.
Qed.

(** What is left of the state at the start when a goroutine looks at it. *)
Lemma holds_within al owner i G R P US UH : marked G -> (forall k id, owner (Made k id) = None) ->
  holds al ∅ no_regs all all G R P -> within owner i R P US UH -> holds al (shared owner G) R US UH (known owner i G) R P.
Proof.
  intros HM Ho (R1 & HL & H2 & H3 & H4 & H5) [W1 W2]. split_and!.
  - destruct R1 as [Q1 Q2 Q3 Q4 Q5 Q6]. split.
    + exact Q1.
    + rewrite known_ids by assumption. exact Q2.
    + rewrite known_ids by assumption. exact Q3.
    + intros a j w Hw. apply known_lookup in Hw as [Hw _]. eauto.
    + intros l w Hw. apply known_lookup in Hw as [Hw _]. eauto.
    + intros l Hl. apply shared_dom in Hl as [Hl Hn]. apply known_dom. split; [exact Hl|]. left. exact Hn.
  - exact HL.
  - intros j x y Hx Hy. destruct (H2 _ _ _ Hx Hy) as (A & B & C). split; [exact A|]. split; [rewrite known_ids by assumption; exact B|].
    intros [U|U]; [|apply lookup_lt_Some in Hx; lia].
    destruct (C (or_introl I)) as ((O1 & O2 & O3 & O4) & [K1 K2] & M). destruct x as [mt o], y as [mt' h]. cbn [fst snd] in *. subst mt'.
    destruct (W1 _ _ _ _ U Hx Hy) as (P1 & P2 & P3). split; [|split].
    + split_and!; [apply known_lookup; split; [exact O1|apply P1; reflexivity]|apply known_lookup; split; [exact O2|apply P1; reflexivity]|exact O3|].
      intros k z Hz. apply known_lookup. split; [auto|apply P1; reflexivity].
    + split; [exact K1|]. intros a b Hw. apply known_dom. split; [auto|apply P2, Hw].
    + unfold has_map in *. destruct (h_m h) as [t|]; [|exact I]. destruct M as (m & Hm & Hd). exists m. split; [exact Hm|]. apply known_dom. auto.
  - exact H3.
  - exact H4.
  - intros k s Hs [U|U]; [|apply lookup_lt_Some in Hs; lia]. destruct (H5 _ _ Hs (or_introl I)) as [K1 K2]. split; [exact K1|].
    intros a b Hw. apply known_dom. split; [auto|eauto].
Qed.

(** What goroutine [i] is to do after [setup]: it starts with copies of the variables. *)
Record plan := mkPlan { uses_structs : nat -> Prop; uses_slices : nat -> Prop; actions : list act }.

(** In every state that [setup] can leave, the goroutine keeps to what it may read and
    what it may write to. *)
Definition well_behaved (more : nat) (grow : Z -> Z -> Z) (setup : list act) (obs : list (option SpecShare.seen)) (R : regs) (G : heap)
    (owner : owners) (i : nat) (g : plan) : Prop :=
  forall al P, run al ∅ ∅ (c_client more grow no_regs setup) = Some (Ok (obs, R), G) ->
    Recover.rrun (lift_grow grow) (p_empty (allocator_of al)) setup = (obs, Ok P) ->
    within owner i R P (uses_structs g) (uses_slices g) /\
    keeps (shared owner G) R (uses_structs g) (uses_slices g) grow P (actions g).

Section fork.
Context (more : nat) (grow : Z -> Z -> Z) (setup : list act) (obs : list (option SpecShare.seen)) (R : regs) (G : heap).
Context (al0 : kind -> gset nat -> nat) (Hsetup : run al0 ∅ ∅ (c_client more grow no_regs setup) = Some (Ok (obs, R), G)).

(** As in the beginning, then as [al]. *)
Definition then_al (al : kind -> gset nat -> nat) : kind -> gset nat -> nat :=
  fun kd d => if decide (ids kd G ⊆ d) then al kd d else al0 kd d.
Lemma then_before al : run (then_al al) ∅ ∅ (c_client more grow no_regs setup) = Some (Ok (obs, R), G).
Proof.
  eapply run_before; [|exact Hsetup]. intros kd d [_ Hd]. unfold then_al. rewrite decide_False by exact Hd. reflexivity.
Qed.
Lemma then_after al {A} RO T (p : prog A) : (forall kd, ids kd T = ids kd G) -> run (then_al al) RO T p = run al RO T p.
Proof. intros Hi. apply run_after. intros kd d Hd. unfold then_al. rewrite Hi in Hd. rewrite decide_True by exact Hd. reflexivity. Qed.

Lemma marked_G : marked G.
Proof. eapply run_marked; [|exact Hsetup]. intros kd id. rewrite ids_empty. set_solver. Qed.

(** One goroutine after [setup]. *)
Definition alone (g : plan) (G' : heap) (r : res (list (option SpecShare.seen) * regs)) : Prop :=
  exists al, let x := Recover.rrun (lift_grow grow) (p_empty (allocator_of al)) (setup ++ actions g) in
    match r with
    | Ok (l, R') => x.1 = obs ++ l /\ exists P' T' RO', x.2 = Ok P' /\ T' ⊆ G' /\ holds al RO' R (uses_structs g) (uses_slices g) T' R' P'
    | Panic => False
    | PastLen => x.2 = PastLen
    | OutOfFuel => x.2 = OutOfFuel
    end.

Lemma solo owner i g al : (forall k id, owner (Made k id) = None) -> well_behaved more grow setup obs R G owner i g ->
  exists r T', run al (shared owner G) (known owner i G) (c_client more grow R (actions g)) = Some (r, T') /\ forall G', T' ⊆ G' -> alone g G' r.
Proof.
  intros Ho Hw. pose proof marked_G as HM. destruct (begin_ok _ _ _ _ _ _ _ (then_before al)) as (P & EP & HP).
  destruct (Hw _ _ (then_before al) EP) as [W K].
  pose proof (holds_within _ _ _ _ _ _ _ _ HM Ho HP W) as H.
  assert (Hn : newer (shared owner G) R R) by (intros j x Hx; left; exact Hx).
  pose proof (client_ok _ _ _ _ _ more grow (actions g) _ _ _ H Hn K) as HC. unfold wp in HC.
  rewrite (then_after al) in HC by (intros kd; apply known_ids; assumption).
  destruct (run al _ _ _) as [[r T']|]; [|contradiction]. exists r, T'. split; [reflexivity|]. intros G' HG. exists (then_al al).
  rewrite rrun_app, EP. cbv zeta in *. destruct (Recover.rrun _ P (actions g)) as [l [P2| | |]]; cbn [fst snd] in *; [|contradiction|subst r; reflexivity..].
  destruct HC as (R' & -> & HC & _). split; [reflexivity|]. exists P2, T', (shared owner G). auto.
Qed.

Theorem fork_ok owner (gs : list plan) G' ps' : (forall k id, owner (Made k id) = None) ->
  (forall i g, gs !! i = Some g -> well_behaved more grow setup obs R G owner i g) ->
  csteps (G, map (fun g => c_client more grow R (actions g)) gs) (G', ps') ->
  ~ race ps' /\ ~ wild G' ps' /\
  (forall i g, gs !! i = Some g -> exists p', ps' !! i = Some p' /\ forall r, p' = Stop r -> alone g G' r) /\
  (forall l w, G !! l = Some w -> owner l = None -> G' !! l = Some w).
Proof.
  intros Ho Hw Hst. pose proof marked_G as HM.
  set (gos := imap (fun i g => mkGo (known owner i G) (shared owner G) (c_client more grow R (actions g))) gs).
  assert (Hg : forall i go, gos !! i = Some go -> exists g, gs !! i = Some g /\ go = mkGo (known owner i G) (shared owner G) (c_client more grow R (actions g))).
  { intros i go H. unfold gos in H. rewrite list_lookup_imap in H. destruct (gs !! i) as [g|]; [|discriminate]. injection H as <-. eauto. }
  assert (Hp : map g_prog gos = map (fun g => c_client more grow R (actions g)) gs).
  { apply list_eq. intros i. unfold gos. rewrite !list_lookup_fmap, list_lookup_imap. destruct (gs !! i); reflexivity. }
  rewrite <- Hp in Hst.
  destruct (no_interference G gos G' ps') as (N1 & N2 & N3 & N4).
  - split.
    + intros i go H. apply Hg in H as (g & _ & ->). cbn [g_knows g_shared]. split; [apply map_filter_subseteq|].
      intros l Hl. apply shared_dom in Hl as [Hl Hn]. apply known_dom. split; [exact Hl|]. left. exact Hn.
    + intros i j g1 g2 l Hij H1 H2. apply Hg in H1 as (? & _ & ->). apply Hg in H2 as (? & _ & ->). cbn [g_knows g_shared].
      rewrite !known_dom, shared_dom. unfold may_read. intros [Hl [Hn|Hn]] Hs [_ [Hn2|Hn2]]; try (apply Hs; auto; fail); congruence.
  - intros i go al H. apply Hg in H as (g & Hgi & ->). cbn [g_knows g_shared g_prog]. destruct (solo owner i g al Ho (Hw _ _ Hgi)) as (r & T' & E & _). rewrite E. discriminate.
  - exact Hst.
  - split; [exact N1|]. split; [exact N2|]. split.
    + intros i g Hgi. destruct (N3 i (mkGo (known owner i G) (shared owner G) (c_client more grow R (actions g)))) as (al & p' & Hp' & Hr).
      { unfold gos. rewrite list_lookup_imap, Hgi. reflexivity. }
      exists p'. split; [exact Hp'|]. intros r ->. destruct (Hr r eq_refl) as (T' & E & HT). cbn [g_knows g_shared g_prog] in E.
      destruct (solo owner i g al Ho (Hw _ _ Hgi)) as (r2 & T2 & E2 & Ha). rewrite E in E2. injection E2 as <- <-. apply Ha, HT.
    + intros l w Hl Hn. apply N4; [exact Hl|]. intros i go H _. apply Hg in H as (g & _ & ->). cbn [g_shared]. apply shared_dom. split; [|exact Hn]. apply elem_of_dom. eauto.
Qed.
End fork.
