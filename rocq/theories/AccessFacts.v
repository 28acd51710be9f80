(** * Goroutines that keep to their own memory do not race *)
From Verif Require Import Access.

Lemma elem_ids kd T id : id ∈ ids kd T <-> exists l w, T !! l = Some w /\ block l = (kd, id).
Proof.
  unfold ids. rewrite elem_of_list_to_set, elem_of_list_omap. split.
  - intros (l & Hl & E). apply elem_of_elements, elem_of_dom in Hl. destruct Hl as [w Hw]. destruct (decide _) as [Ek|]; [|discriminate].
    injection E as <-. exists l, w. split; [exact Hw|]. destruct (block l) as [k2 i2]. cbn in *. subst. reflexivity.
  - intros (l & w & Hw & E). exists l. split; [apply elem_of_elements, elem_of_dom; eauto|]. rewrite E. cbn. rewrite decide_True by reflexivity. reflexivity.
Qed.

Lemma new_list_block kd n id l w : (l, w) ∈ new_list kd n id -> block l = (kd, id).
Proof.
  unfold new_list. rewrite elem_of_cons. intros [[= -> _]|H]; [reflexivity|]. revert H. destruct kd; rewrite ?elem_of_cons.
  - intros H. apply elem_of_list_In, in_map_iff in H as (j & [= <- _] & _). reflexivity.
  - intros [[= -> _]|H]; [reflexivity|]. inversion H.
  - intros [[= -> _]|[[= -> _]|H]]; try reflexivity. apply elem_of_list_In, in_map_iff in H as (j & [= <- _] & _). reflexivity.
Qed.
Lemma new_block kd n id l w : new_cells kd n id !! l = Some w -> block l = (kd, id).
Proof. intros H. apply elem_of_list_to_map_2 in H. exact (new_list_block _ _ _ _ _ H). Qed.
Lemma new_nonempty kd n id : exists l w, new_cells kd n id !! l = Some w.
Proof. destruct kd; cbn; eexists _, _; apply lookup_insert. Qed.

Lemma ids_new kd n id T : ids kd (new_cells kd n id ∪ T) = {[ id ]} ∪ ids kd T.
Proof.
  apply leibniz_equiv. intros x. rewrite elem_of_union, elem_of_singleton, !elem_ids. split.
  - intros (l & w & Hl & E). apply lookup_union_Some_raw in Hl as [Hl|[_ Hl]].
    + apply new_block in Hl. rewrite Hl in E. injection E as <-. left. reflexivity.
    + right. eauto.
  - intros [->|(l & w & Hl & E)].
    + destruct (new_nonempty kd n id) as (l & w & Hl). exists l, w. split; [apply lookup_union_Some_raw; left; exact Hl|exact (new_block _ _ _ _ _ Hl)].
    + destruct (new_cells kd n id !! l) as [w2|] eqn:E2; [exists l, w2|exists l, w]; (split; [apply lookup_union_Some_raw|exact E]); [left; exact E2|right; split; assumption].
Qed.
Lemma ids_new_other kd kd' n id T : kd <> kd' -> ids kd' (new_cells kd n id ∪ T) = ids kd' T.
Proof.
  intros Hk. apply leibniz_equiv. intros x. rewrite !elem_ids. split.
  - intros (l & w & Hl & E). apply lookup_union_Some_raw in Hl as [Hl|[_ Hl]]; [|eauto].
    apply new_block in Hl. congruence.
  - intros (l & w & Hl & E). exists l, w. split; [|exact E]. apply lookup_union_Some_raw. right. split; [|exact Hl].
    destruct (new_cells kd n id !! l) eqn:E2; [|reflexivity]. apply new_block in E2. congruence.
Qed.
Lemma ids_insert kd l w T : is_Some (T !! l) -> ids kd (<[l := w]> T) = ids kd T.
Proof.
  intros Hs. unfold ids. rewrite dom_insert_L. replace ({[l]} ∪ dom T) with (dom T); [reflexivity|].
  apply elem_of_dom in Hs. set_solver.
Qed.
Lemma pick_chosen f d a : f d = a -> a ∉ d -> pick f d = a.
Proof. Transparent pick. intros <- H. unfold pick. rewrite decide_False by exact H. reflexivity. Opaque pick. Qed.

(** ** The invariant *)
Section threads.
Context {A : Type}.
Notation alloc_t := (kind -> gset nat -> nat).
(** The choices of the allocator so far: for which numbers in use, which number. *)
Definition obeys (al : alloc_t) (C : list (kind * gset nat * nat)) : Prop := forall kd d a, (kd, d, a) ∈ C -> al kd d = a.

(** A goroutine that started as [p0], knowing [T0], and now is [p], knowing [T]. *)
Definition tinv (RO : gset loc) (T0 : heap) (p0 : prog A) (G T : heap) (p : prog A) : Prop :=
  (forall al, run al RO T0 p0 <> None) /\ T ⊆ G /\
  (forall l, l ∈ dom T -> l ∈ RO -> T !! l = T0 !! l) /\
  exists C, (exists al, obeys al C) /\ (forall al, obeys al C -> run al RO T0 p0 = run al RO T p) /\
    (forall kd d a, (kd, d, a) ∈ C -> d ⊂ ids kd T).

Lemma tinv_run RO T0 p0 G T p : tinv RO T0 p0 G T p -> exists al, run al RO T0 p0 = run al RO T p /\ run al RO T p <> None.
Proof. intros (Hs & _ & _ & C & (al & Ho) & Hr & _). exists al. rewrite <- (Hr al Ho). split; [reflexivity|apply Hs]. Qed.

(** What it is about to access it knows, and it does not write to [RO]. *)
Lemma tinv_next RO T0 p0 G T p l w : tinv RO T0 p0 G T p -> next p = Some (l, w) -> l ∈ dom T /\ (w = true -> l ∉ RO).
Proof.
  intros Hi Hn. destruct (tinv_run _ _ _ _ _ _ Hi) as (al & _ & Hr).
  destruct p; cbn in Hn; try discriminate; injection Hn as <- <-; cbn in Hr; destruct (T !! l0) eqn:E; try (exfalso; exact (Hr eq_refl));
    (split; [apply elem_of_dom; eauto|]); [discriminate|]. intros _. destruct (decide _) as [|]; [exfalso; exact (Hr eq_refl)|assumption].
Qed.

(** A step of this goroutine. *)
Lemma tinv_step RO T0 p0 G T p G' p' : tinv RO T0 p0 G T p -> (forall l, l ∈ RO -> l ∈ dom T0) -> dom T0 ⊆ dom T -> tstep G p G' p' ->
  exists T', tinv RO T0 p0 G' T' p' /\ dom T ⊆ dom T' /\
    (forall l, l ∈ dom T' -> l ∈ dom T \/ l ∉ dom G) /\
    (forall l, l ∈ dom G -> G' !! l = G !! l \/ (l ∈ dom T /\ l ∉ RO)) /\ dom G ⊆ dom G'.
Proof.
  intros Hi Hro Hdom Hst. pose proof Hi as (Hs & HT & Hk & C & [al0 Ho0] & Hr & HC). destruct Hst as [l w k Hl|l w k Hl|kd n k id Hf].
  - exists T. destruct (tinv_next _ _ _ _ _ _ l false Hi eq_refl) as [Hd _]. apply elem_of_dom in Hd as [w' Hw].
    assert (w' = w) as -> by (pose proof (lookup_weaken _ _ _ _ Hw HT) as H; congruence).
    split; [|split_and!; auto]. split; [exact Hs|]. split; [exact HT|]. split; [exact Hk|]. exists C. split_and!; [eauto| |exact HC].
    intros al Ho. rewrite (Hr al Ho). cbn. rewrite Hw. reflexivity.
  - exists (<[l := w]> T). destruct (tinv_next _ _ _ _ _ _ l true Hi eq_refl) as [Hd Hno]. specialize (Hno eq_refl). pose proof Hd as Hd'. apply elem_of_dom in Hd as [w' Hw].
    split; [|split_and!].
    + split; [exact Hs|]. split; [apply insert_mono; exact HT|]. split; [intros l2 H2 HR; rewrite lookup_insert_ne by (intros ->; exact (Hno HR)); apply Hk; [rewrite dom_insert_L in H2; set_solver|exact HR]|].
      exists C. split_and!; [eauto| |].
      * intros al Ho. rewrite (Hr al Ho). cbn. rewrite Hw. rewrite decide_False by exact Hno. reflexivity.
      * intros kd d a Ha. rewrite ids_insert by eauto. exact (HC _ _ _ Ha).
    + rewrite dom_insert_L. set_solver.
    + intros l2 H2. rewrite dom_insert_L in H2. set_solver.
    + intros l2 _. destruct (decide (l2 = l)) as [->|Hne]; [right; auto|left; apply lookup_insert_ne; congruence].
    + rewrite dom_insert_L. set_solver.
  - assert (HfT : id ∉ ids kd T). { rewrite elem_ids. intros (l & w & Hw & E). exact (Hf l w (lookup_weaken _ _ _ _ Hw HT) E). }
    assert (Hnew : forall l w, new_cells kd n id !! l = Some w -> G !! l = None). { intros l w Hw. apply new_block in Hw. destruct (G !! l) eqn:E; [|reflexivity]. exfalso. exact (Hf _ _ E Hw). }
    exists (new_cells kd n id ∪ T). split; [|split_and!].
    + split; [exact Hs|]. split.
      { apply map_union_mono_l. exact HT. }
      split. { intros l Hl HR. pose proof (Hdom _ (Hro _ HR)) as HlT. rewrite <- (Hk l HlT HR). apply elem_of_dom in HlT as [w Hw].
        rewrite lookup_union_r; [reflexivity|]. destruct (new_cells kd n id !! l) eqn:E; [|reflexivity]. apply Hnew in E. rewrite (lookup_weaken _ _ _ _ Hw HT) in E. discriminate. }
      exists ((kd, ids kd T, id) :: C). split_and!.
      * set (al1 := fun k2 d2 => if decide (k2 = kd /\ d2 = ids kd T) then id else al0 k2 d2). exists al1. intros k2 d2 a2 Ha. unfold al1. apply elem_of_cons in Ha as [[= -> -> ->]|Ha].
        { rewrite decide_True by auto. reflexivity. }
        rewrite decide_False; [exact (Ho0 _ _ _ Ha)|]. intros [-> ->]. specialize (HC _ _ _ Ha). apply (irreflexivity (⊂) _ HC).
      * intros al Ho. rewrite (Hr al); [|intros k2 d2 a2 Ha; apply Ho, elem_of_cons; right; exact Ha]. cbn.
        rewrite (pick_chosen _ _ id); [reflexivity| |exact HfT]. apply Ho, elem_of_cons. left. reflexivity.
      * intros k2 d2 a2 Ha. apply elem_of_cons in Ha as [[= -> -> ->]|Ha].
        { rewrite ids_new. split; [set_solver|]. intros H. apply HfT, H. set_solver. }
        specialize (HC _ _ _ Ha). destruct (decide (k2 = kd)) as [->|Hne]; [rewrite ids_new; set_solver|rewrite ids_new_other by congruence; exact HC].
    + rewrite dom_union_L. set_solver.
    + intros l Hl. apply elem_of_dom in Hl as [w Hw]. apply lookup_union_Some_raw in Hw as [Hw|[_ Hw]]; [right; rewrite not_elem_of_dom; eauto|left; apply elem_of_dom; eauto].
    + intros l Hl. left. apply elem_of_dom in Hl as [w Hw]. rewrite lookup_union_r; [reflexivity|]. destruct (new_cells kd n id !! l) eqn:E; [|reflexivity]. apply Hnew in E. congruence.
    + rewrite dom_union_L. set_solver.
Qed.

(** A goroutine: the memory it knows of, the part of it that it only reads, its
    program. *)
Record goroutine := mkGo { g_knows : heap; g_shared : gset loc; g_prog : prog A }.

(** The memory of different goroutines: what one of them may write to, no other knows
    of. *)
Definition separated (G : heap) (gs : list goroutine) : Prop :=
  (forall i g, gs !! i = Some g -> g_knows g ⊆ G /\ g_shared g ⊆ dom (g_knows g)) /\
  (forall i j g1 g2 l, i <> j -> gs !! i = Some g1 -> gs !! j = Some g2 ->
     l ∈ dom (g_knows g1) -> l ∉ g_shared g1 -> l ∉ dom (g_knows g2)).

Definition cinv (G0 : heap) (gs : list goroutine) (G : heap) (ps : list (prog A)) (Ts : list heap) : Prop :=
  length Ts = length gs /\ length ps = length gs /\
  (forall i g p T, gs !! i = Some g -> ps !! i = Some p -> Ts !! i = Some T ->
     tinv (g_shared g) (g_knows g) (g_prog g) G T p /\ dom (g_knows g) ⊆ dom T) /\
  (forall i j g T1 T2 l, i <> j -> gs !! i = Some g -> Ts !! i = Some T1 -> Ts !! j = Some T2 ->
     l ∈ dom T1 -> l ∉ g_shared g -> l ∉ dom T2) /\
  (forall l, l ∈ dom G0 -> (forall i g, gs !! i = Some g -> l ∈ dom (g_knows g) -> l ∈ g_shared g) -> G !! l = G0 !! l) /\
  dom G0 ⊆ dom G /\
  (forall i g T l, gs !! i = Some g -> Ts !! i = Some T -> l ∈ dom T -> l ∈ dom (g_knows g) \/ l ∉ dom G0).

Lemma cinv_start G gs : separated G gs -> (forall i g al, gs !! i = Some g -> run al (g_shared g) (g_knows g) (g_prog g) <> None) ->
  cinv G gs G (map g_prog gs) (map g_knows gs).
Proof.
  intros [H1 H2] Hs. split_and!; rewrite ?map_length; try reflexivity.
  - intros i g p T Hg Hp HT. rewrite list_lookup_fmap, Hg in Hp. rewrite list_lookup_fmap, Hg in HT. injection Hp as <-. injection HT as <-.
    split; [|reflexivity]. split; [intros al; eauto|]. split; [apply (H1 _ _ Hg)|]. split; [reflexivity|].
    exists []. split_and!; [exists (fun _ _ => 0%nat); intros kd d a H; inversion H|reflexivity|intros kd d a H; inversion H].
  - intros i j g T1 T2 l Hij Hg E1 E2 Hl Hn. rewrite list_lookup_fmap in E1. rewrite list_lookup_fmap in E2. rewrite Hg in E1. injection E1 as <-.
    destruct (gs !! j) as [g2|] eqn:Ej; [|discriminate]. injection E2 as <-. eauto.
  - intros i g T l Hg HT Hl. rewrite list_lookup_fmap, Hg in HT. injection HT as <-. left. exact Hl.
Qed.

Lemma cinv_step G0 gs G ps Ts G' ps' : separated G0 gs -> cinv G0 gs G ps Ts -> cstep (G, ps) (G', ps') -> exists Ts', cinv G0 gs G' ps' Ts'.
Proof.
  intros [Hsep1 Hsep2] (L1 & L2 & Hi & Hd & Hk & HG & Hn) Hst. remember (G, ps) as c eqn:Ec. remember (G', ps') as c' eqn:Ec'. destruct Hst as [H qs i p H' p' Hp Hst]. injection Ec as -> ->. injection Ec' as -> <-.
  assert (is_Some (gs !! i)) as [g Hg] by (apply lookup_lt_is_Some; rewrite <- L2; eapply lookup_lt_Some; exact Hp).
  assert (is_Some (Ts !! i)) as [T HT] by (apply lookup_lt_is_Some; rewrite L1, <- L2; eapply lookup_lt_Some; exact Hp).
  destruct (Hi _ _ _ _ Hg Hp HT) as [Hti Hdg].
  destruct (tinv_step _ _ _ _ _ _ _ _ Hti (proj2 (Hsep1 _ _ Hg)) Hdg Hst) as (T' & Hti' & HdT & Hnew & Hch & HGG).
  assert (HTG : forall j T2, Ts !! j = Some T2 -> dom T2 ⊆ dom G).
  { intros j T2 E2 l Hl. assert (is_Some (gs !! j)) as [g2 Hg2] by (apply lookup_lt_is_Some; rewrite <- L1; eapply lookup_lt_Some; exact E2).
    assert (is_Some (ps !! j)) as [p2 Hp2] by (apply lookup_lt_is_Some; rewrite L2, <- L1; eapply lookup_lt_Some; exact E2).
    destruct (Hi _ _ _ _ Hg2 Hp2 E2) as [(_ & H2 & _) _]. exact (subseteq_dom _ _ H2 _ Hl). }
  exists (<[i := T']> Ts). split_and!; rewrite ?insert_length; auto.
  - intros j g2 p2 T2 Hg2 Hp2 HT2. destruct (decide (j = i)) as [->|Hne].
    + rewrite list_lookup_insert in Hp2 by (eapply lookup_lt_Some; exact Hp). rewrite list_lookup_insert in HT2 by (eapply lookup_lt_Some; exact HT).
      injection Hp2 as <-. injection HT2 as <-. assert (g2 = g) as -> by congruence. split; [exact Hti'|]. etransitivity; eassumption.
    + rewrite list_lookup_insert_ne in Hp2 by congruence. rewrite list_lookup_insert_ne in HT2 by congruence. destruct (Hi _ _ _ _ Hg2 Hp2 HT2) as [(Hs2 & Hs3 & Hs4 & Hs5) Hd2]. split; [|exact Hd2].
      split; [exact Hs2|]. split; [|auto]. apply map_subseteq_spec. intros l w Hl. pose proof (lookup_weaken _ _ _ _ Hl Hs3) as HlG.
      destruct (Hch l) as [E|[E1 E2]]; [apply elem_of_dom; eauto|congruence|]. exfalso. apply (Hd i j g T T2 l ltac:(congruence) Hg HT HT2 E1 E2). apply elem_of_dom. eauto.
  - intros a b ga T1 T2 l Hab Hga E1 E2 Hl Hno.
    destruct (decide (a = i)) as [->|Ha].
    + rewrite list_lookup_insert in E1 by (eapply lookup_lt_Some; exact HT). injection E1 as <-. assert (ga = g) as -> by congruence.
      rewrite list_lookup_insert_ne in E2 by congruence. destruct (Hnew l Hl) as [Hl2|Hl2]; [eauto|]. intros H2. exact (Hl2 (HTG _ _ E2 _ H2)).
    + rewrite list_lookup_insert_ne in E1 by congruence. destruct (decide (b = i)) as [->|Hb].
      * rewrite list_lookup_insert in E2 by (eapply lookup_lt_Some; exact HT). injection E2 as <-. intros H2. destruct (Hnew l H2) as [H3|H3].
        { exact (Hd _ _ _ _ _ _ Hab Hga E1 HT Hl Hno H3). } exact (H3 (HTG _ _ E1 _ Hl)).
      * rewrite list_lookup_insert_ne in E2 by congruence. eauto.
  - intros l Hl Hall. rewrite <- (Hk l Hl Hall). destruct (Hch l) as [E|[E1 E2]]; [set_solver|exact E|].
    exfalso. destruct (Hn _ _ _ _ Hg HT E1) as [E3|E3]; [exact (E2 (Hall _ _ Hg E3))|exact (E3 Hl)].
  - set_solver.
  - intros j g2 T2 l Hg2 HT2 Hl. destruct (decide (j = i)) as [->|Hne].
    + rewrite list_lookup_insert in HT2 by (eapply lookup_lt_Some; exact HT). injection HT2 as <-. assert (g2 = g) as -> by congruence.
      destruct (Hnew l Hl) as [H3|H3]; [eauto|right; set_solver].
    + rewrite list_lookup_insert_ne in HT2 by congruence. eauto.
Qed.

Lemma cinv_steps G gs c : separated G gs -> (forall i g al, gs !! i = Some g -> run al (g_shared g) (g_knows g) (g_prog g) <> None) ->
  csteps (G, map g_prog gs) c -> exists Ts, cinv G gs c.1 c.2 Ts.
Proof.
  intros Hsep Hs H. remember (G, map g_prog gs) as c0 eqn:E0. induction H as [c|c1 c2 c3 H1 IH Hst].
  - subst c. exists (map g_knows gs). apply cinv_start; assumption.
  - destruct (IH E0) as [Ts HTs]. destruct c2 as [G2 ps2], c3 as [G3 ps3]. exact (cinv_step _ _ _ _ _ _ _ Hsep HTs Hst).
Qed.

(** Goroutines that, each alone, keep to the memory they know of, and write to
    nothing another one knows of: no interleaving has a data race or a wild access,
    and each goroutine ends as it does alone, with the allocator that makes the
    choices made in this interleaving; memory nobody may write to is unchanged. *)
Theorem no_interference G gs G' ps' : separated G gs ->
  (forall i g al, gs !! i = Some g -> run al (g_shared g) (g_knows g) (g_prog g) <> None) ->
  csteps (G, map g_prog gs) (G', ps') ->
  ~ race ps' /\ ~ wild G' ps' /\
  (forall i g, gs !! i = Some g -> exists al p', ps' !! i = Some p' /\
     forall r, p' = Stop r -> exists T', run al (g_shared g) (g_knows g) (g_prog g) = Some (r, T') /\ T' ⊆ G') /\
  (forall l w, G !! l = Some w -> (forall i g, gs !! i = Some g -> l ∈ dom (g_knows g) -> l ∈ g_shared g) -> G' !! l = Some w).
Proof.
  intros Hsep Hs Hst. destruct (cinv_steps _ _ _ Hsep Hs Hst) as (Ts & L1 & L2 & Hi & Hd & Hk & _). cbn [fst snd] in *.
  assert (Hget : forall i p, ps' !! i = Some p -> exists g T, gs !! i = Some g /\ Ts !! i = Some T).
  { intros i p Hp. apply lookup_lt_Some in Hp. assert (is_Some (gs !! i)) as [g Hg] by (apply lookup_lt_is_Some; lia).
    assert (is_Some (Ts !! i)) as [T HT] by (apply lookup_lt_is_Some; lia). eauto. }
  split_and!.
  - intros (i & j & p & q & l & w1 & w2 & Hij & Hp & Hq & Np & Nq & Hw).
    destruct (Hget _ _ Hp) as (g1 & T1 & Hg1 & HT1), (Hget _ _ Hq) as (g2 & T2 & Hg2 & HT2).
    destruct (Hi _ _ _ _ Hg1 Hp HT1) as [I1 _], (Hi _ _ _ _ Hg2 Hq HT2) as [I2 _].
    destruct (tinv_next _ _ _ _ _ _ _ _ I1 Np) as [D1 R1], (tinv_next _ _ _ _ _ _ _ _ I2 Nq) as [D2 R2].
    destruct Hw as [->| ->].
    + exact (Hd i j _ _ _ _ Hij Hg1 HT1 HT2 D1 (R1 eq_refl) D2).
    + exact (Hd j i _ _ _ _ (not_eq_sym Hij) Hg2 HT2 HT1 D2 (R2 eq_refl) D1).
  - intros (i & p & l & w & Hp & Np & Hl). destruct (Hget _ _ Hp) as (g1 & T1 & Hg1 & HT1). destruct (Hi _ _ _ _ Hg1 Hp HT1) as [I1 _].
    destruct (tinv_next _ _ _ _ _ _ _ _ I1 Np) as [D1 _]. destruct I1 as (_ & HT & _). apply elem_of_dom in D1 as [x Hx]. rewrite (lookup_weaken _ _ _ _ Hx HT) in Hl. discriminate.
  - intros i g Hg. assert (is_Some (ps' !! i)) as [p Hp] by (apply lookup_lt_is_Some; rewrite L2; eapply lookup_lt_Some; exact Hg).
    destruct (Hget _ _ Hp) as (g1 & T1 & Hg1 & HT1). assert (g1 = g) as -> by congruence. destruct (Hi _ _ _ _ Hg Hp HT1) as [I1 _].
    destruct (tinv_run _ _ _ _ _ _ I1) as (al & Hr & _). exists al, p. split; [exact Hp|]. intros r ->. exists T1. split; [rewrite Hr; reflexivity|apply I1].
  - intros l w Hl Hall. rewrite <- Hl. apply Hk; [apply elem_of_dom; eauto|exact Hall].
Qed.
End threads.

(** ** Goroutines can go on until they are done *)
Lemma csteps_trans {A} (c1 c2 c3 : heap * list (prog A)) : csteps c1 c2 -> csteps c2 c3 -> csteps c1 c3.
Proof. intros H1 H2. induction H2; [exact H1|]. econstructor; [apply IHcsteps; exact H1|eassumption]. Qed.

Definition finished {A} (p : prog A) : Prop := match p with Stop _ => True | _ => False end.
Lemma tstep_exists {A} (G : heap) (p : prog A) : (forall l w, next p = Some (l, w) -> is_Some (G !! l)) -> finished p \/ exists G' p', tstep G p G' p'.
Proof.
  intros Hn. destruct p as [r|l k|l w k|kd n k].
  - left. exact I.
  - right. destruct (Hn _ _ eq_refl) as [w Hw]. eexists _, _. econstructor. exact Hw.
  - right. eexists _, _. econstructor. exact (Hn _ _ eq_refl).
  - right. set (id := fresh (ids kd G)). exists (new_cells kd n id ∪ G), (k id). constructor. intros l w Hl E. apply (is_fresh (ids kd G)). apply elem_ids. eauto.
Qed.

(** If nothing that can be reached has a wild access, then from all that can be reached
    a state can be reached in which all goroutines are done. *)
Lemma thread_finishes {A} (I : heap * list (prog A) -> Prop) : (forall c c', I c -> cstep c c' -> I c') -> (forall c, I c -> ~ wild c.1 c.2) ->
  forall p G ps i, I (G, ps) -> ps !! i = Some p -> exists G' q, csteps (G, ps) (G', <[i := q]> ps) /\ finished q.
Proof.
  intros Hs Hw. induction p as [r|l k IH|l w k IH|kd n k IH]; intros G ps i HI Hp.
  - exists G, (Stop r). split; [|exact Logic.I]. rewrite list_insert_id by exact Hp. constructor.
  - assert (is_Some (G !! l)) as [w Hl]. { destruct (G !! l) eqn:E; [eauto|]. exfalso. apply (Hw _ HI). exists i, (Load l k), l, false. auto. }
    assert (Hst : cstep (G, ps) (G, <[i := k w]> ps)) by (econstructor; [exact Hp|constructor; exact Hl]).
    destruct (IH w G (<[i := k w]> ps) i (Hs _ _ HI Hst)) as (G' & q & H1 & H2); [apply list_lookup_insert; eapply lookup_lt_Some; exact Hp|].
    exists G', q. split; [|exact H2]. rewrite list_insert_insert in H1. eapply csteps_trans; [|exact H1]. econstructor; [constructor|exact Hst].
  - assert (is_Some (G !! l)) as Hl. { destruct (G !! l) eqn:E; [eauto|]. exfalso. apply (Hw _ HI). exists i, (Store l w k), l, true. auto. }
    assert (Hst : cstep (G, ps) (<[l := w]> G, <[i := k]> ps)) by (econstructor; [exact Hp|constructor; exact Hl]).
    destruct (IH (<[l := w]> G) (<[i := k]> ps) i (Hs _ _ HI Hst)) as (G' & q & H1 & H2); [apply list_lookup_insert; eapply lookup_lt_Some; exact Hp|].
    exists G', q. split; [|exact H2]. rewrite list_insert_insert in H1. eapply csteps_trans; [|exact H1]. econstructor; [constructor|exact Hst].
  - set (id := fresh (ids kd G)).
    assert (Hst : cstep (G, ps) (new_cells kd n id ∪ G, <[i := k id]> ps)).
    { econstructor; [exact Hp|]. constructor. intros l w Hl E. apply (is_fresh (ids kd G)). apply elem_ids. eauto. }
    destruct (IH id (new_cells kd n id ∪ G) (<[i := k id]> ps) i (Hs _ _ HI Hst)) as (G' & q & H1 & H2); [apply list_lookup_insert; eapply lookup_lt_Some; exact Hp|].
    exists G', q. split; [|exact H2]. rewrite list_insert_insert in H1. eapply csteps_trans; [|exact H1]. econstructor; [constructor|exact Hst].
Qed.
Lemma all_finish {A} (I : heap * list (prog A) -> Prop) : (forall c c', I c -> cstep c c' -> I c') -> (forall c, I c -> ~ wild c.1 c.2) ->
  forall G ps, I (G, ps) -> exists G' ps', csteps (G, ps) (G', ps') /\ Forall finished ps'.
Proof.
  intros Hs Hw. assert (Hss : forall c c', csteps c c' -> I c -> I c') by (intros c c' H; induction H; eauto).
  assert (Hgo : forall d G ps j, (j + d = length ps)%nat -> I (G, ps) -> Forall finished (take j ps) -> exists G' ps', csteps (G, ps) (G', ps') /\ Forall finished ps').
  { induction d as [|d IH]; intros G ps j Hj HI HF.
    - exists G, ps. split; [constructor|]. rewrite take_ge in HF by lia. exact HF.
    - assert (is_Some (ps !! j)) as [p Hp] by (apply lookup_lt_is_Some; lia).
      destruct (thread_finishes I Hs Hw p G ps j HI Hp) as (G1 & q & H1 & H2).
      destruct (IH G1 (<[j := q]> ps) (S j)) as (G2 & ps2 & H3 & H4).
      + rewrite insert_length. lia.
      + eapply Hss; eassumption.
      + rewrite (take_S_r _ j q) by (apply list_lookup_insert; lia). rewrite take_insert by lia. apply Forall_app. split; [exact HF|]. constructor; [exact H2|constructor].
      + exists G2, ps2. split; [eapply csteps_trans; eassumption|exact H4]. }
  intros G ps HI. apply (Hgo (length ps) G ps 0%nat); [lia|exact HI|]. rewrite take_0. constructor.
Qed.
