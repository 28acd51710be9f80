(** * From descriptors to the behaviour of clients of the generated text *)
From Verif Require Import Gen GoLang Spec GoCheck GenSpec GenFile GenPkg GoSem GenBehave GenClient GenRun Api ApiFacts P_Value.
From Coq Require Import ZifyBool.

Lemma somes_in {A} (l : list (option A)) a : a ∈ somes l <-> Some a ∈ l.
Proof.
  unfold somes. rewrite elem_of_list_omap. split.
  - intros (x & H & E). cbn in E. subst x. done.
  - intros H. exists (Some a). done.
Qed.
Lemma field_at_in d k f : field_at d k = Some f -> Some f ∈ d_fields d /\ getNumber (Some f) = k.
Proof.
  intros H. apply find_some in H as [H E]. split; [apply somes_in, elem_of_list_In; done|lia].
Qed.
Lemma field_at_unique d f : distinct_numbers d -> Some f ∈ d_fields d -> field_at d (getNumber (Some f)) = Some f.
Proof.
  unfold distinct_numbers, field_at. intros Hnd Hf. apply somes_in in Hf.
  induction (somes (d_fields d)) as [|g l IH]; [apply elem_of_nil in Hf; done|].
  cbn [map] in Hnd. apply NoDup_cons in Hnd as [H1 H2]. cbn [find]. apply elem_of_cons in Hf as [->|Hf].
  - rewrite Z.eqb_refl. done.
  - destruct (Z.eqb_spec (getNumber (Some g)) (getNumber (Some f))) as [E|_]; [|auto].
    exfalso. apply H1. rewrite E. apply elem_of_list_fmap. eauto.
Qed.

Lemma field_good d f : good_message d -> Some f ∈ d_fields d ->
  proto_name (getName (Some f)) /\ 1 <= getNumber (Some f) < 2 ^ 29 /\ (single (Some f) \/ repeated (Some f)) /\
  ((exists t, message_typed (Some f) t /\ identifier t) \/ is_Some (declared_type (getType (Some f)))).
Proof.
  intros [_ H] Hf. rewrite Forall_forall in H. destruct (H _ Hf) as [?|?]; done.
Qed.

Lemma schema_single d k T : good_message d -> schema_of d k = Some (KSingle T) ->
  exists f, field_at d k = Some f /\ Some f ∈ d_fields d /\ getNumber (Some f) = k /\ single (Some f) /\
  (getType (Some f) = 11 /\ T = PBytes \/ exists g, getType (Some f) <> 11 /\ declared_type (getType (Some f)) = Some (T, g)).
Proof.
  intros Hg H. unfold schema_of in H. destruct (field_at d k) as [f|] eqn:E; [|done]. exists f. split; [done|].
  destruct (field_at_in _ _ _ E) as [Hf Hn]. destruct (field_good d f Hg Hf) as (_ & _ & Hl & _). split; [done|]. split; [done|].
  unfold kind_of in H. unfold single, repeated in *. destruct (Z.eqb_spec (getLabel (Some f)) 3) as [El|El].
  - destruct (_ =? 11); done.
  - split; [lia|]. destruct (Z.eqb_spec (getType (Some f)) 11) as [Et|Et].
    + injection H as <-. auto.
    + right. destruct (declared_type _) as [[T' g]|]; [|done]. injection H as ->. eauto.
Qed.
Lemma schema_repeated d k : good_message d -> schema_of d k = Some KRepeated ->
  exists f, field_at d k = Some f /\ Some f ∈ d_fields d /\ getNumber (Some f) = k /\ repeated (Some f) /\ getType (Some f) = 11.
Proof.
  intros Hg H. unfold schema_of in H. destruct (field_at d k) as [f|] eqn:E; [|done]. exists f. split; [done|].
  destruct (field_at_in _ _ _ E) as [Hf Hn]. split; [done|]. split; [done|].
  unfold kind_of in H. unfold repeated. destruct (Z.eqb_spec (getLabel (Some f)) 3) as [El|El].
  - destruct (Z.eqb_spec (getType (Some f)) 11); done.
  - destruct (_ =? 11); [done|]. destruct (declared_type _) as [[? ?]|]; done.
Qed.

Lemma schema_of_ok d : good_message d -> distinct_numbers d -> schema_ok (mtype_of d) (schema_of d).
Proof.
  intros Hg Hnd. destruct (alen_of d Hg) as [Ea _]. assert (Hm := mtype_is d Hg). destruct Hm as (M1 & _ & M3).
  split_and!.
  - rewrite Ea. destruct Hg as [_ H]. destruct (largest_ok _ H) as [H0 _]. unfold array_len. lia.
  - intros k K H. unfold schema_of in H. destruct (field_at d k) as [f|] eqn:E; [|done]. destruct (field_at_in _ _ _ E) as [Hf Hn].
    destruct (field_good d f Hg Hf) as (_ & Hk & _). specialize (M1 _ Hf). lia.
  - intros k H. destruct (schema_repeated d k Hg H) as (f & _ & Hf & Hn & Hr & _). apply M3. eauto.
  - intros k T H Hin. destruct (schema_single d k T Hg H) as (f & Ef & Hf & Hn & Hs & _). apply M3 in Hin as (g & Hgf & Hr & Hgn).
    destruct g as [g|]; [|unfold repeated in Hr; cbn in Hr; done].
    assert (E := field_at_unique d g Hnd Hgf). rewrite Hgn, Ef in E. injection E as <-. unfold single, repeated in *. lia.
Qed.

Section e2e.
Context (fs : list file) (gs : list gofile) (Hgood : Forall good_file fs) (Hgen : generated fs gs) (Hok : package_ok gs = true).
Notation D := (decls gs).
Context (d : descriptor) (Hd : d ∈ messages fs).
Let Hgd : good_message d := acc_good fs Hgood d Hd.

Lemma elsewhere_insert σ l o : elsewhere σ (<[l := o]> σ) l.
Proof. intros l0 _ H. apply lookup_insert_ne. congruence. Qed.
Lemma elsewhere_fresh σ σ' l o1 : l ∈ dom σ -> elsewhere (<[fresh (dom σ) := o1]> σ) σ' l -> elsewhere σ σ' l.
Proof.
  intros Hl H l0 H0 Hne. rewrite H; [|rewrite dom_insert; set_solver|done]. apply lookup_insert_ne. intros <-.
  apply (is_fresh (dom σ)). done.
Qed.
Lemma elsewhere_trans σ1 σ2 σ3 l : l ∈ dom σ1 -> elsewhere σ1 σ2 l -> elsewhere σ2 σ3 l -> elsewhere σ1 σ3 l.
Proof.
  intros Hl H1 H2 l0 H0 Hne. rewrite H2; [apply H1; done| |done]. apply elem_of_dom. rewrite H1 by done. apply elem_of_dom. done.
Qed.

Lemma go_step_sim n σ l m o m' : σ !! l = Some (OMsg (mname d) m) ->
  op_ok (Z.of_nat (alen (mtype_of d))) (schema_of d) o -> step (mtype_of d) (schema_of d) m o = Ok m' ->
  exists σ', go_step D d (40 + n) σ l o = Ok σ' /\ σ' !! l = Some (OMsg (mname d) m') /\ elsewhere σ σ' l.
Proof using Hgood Hgen Hok Hd.
  intros Hl Ho Hs.
  assert (Hdom : l ∈ dom σ) by (apply elem_of_dom; eauto).
  destruct o as [k v|k x| |rs bs]; cbn [step] in Hs; cbn [go_step].
  - destruct Ho as (T & Hsc & Hv). rewrite Hsc in Hs. destruct (schema_single d k T Hgd Hsc) as (f & -> & Hf & Hn & Hsi & C).
    destruct C as [[Ht ->]|(g & Ht & Hdt)].
    + rewrite Ht. change (11 =? 11) with true. cbn match. cbn in Hv. destruct v as [| | |b]; try done.
      destruct (acc_child fs gs Hgood Hgen Hok d Hd (Some f) Hf ltac:(done) Ht) as (d' & Hd' & Ety).
      unfold struct_arg. rewrite Ety. set (lx := fresh (dom σ)). set (o1 := OMsg (mname d') _). set (σ1 := <[lx := o1]> σ).
      assert (Hx : lx <> l) by (apply (fresh_ne _ _ _ Hl)).
      assert (L1 : σ1 !! lx = Some o1) by apply lookup_insert. assert (L2 : σ1 !! l = Some (OMsg (mname d) m)) by (unfold σ1; rewrite lookup_insert_ne; done).
      rewrite (acc_SetMessage fs gs Hgood Hgen Hok d d' Hd Hd' (Some f) Hf ltac:(done) Ht Ety n σ1 l lx m _ Hsi L2 L1).
      rewrite Hn. unfold m_SetMessage. cbn [m_Encode mbuf].
      assert (E : m_set PBytes m k (VBytes (Some (default [] b))) = m_set PBytes m k (VBytes b)) by reflexivity.
      rewrite E, Hs. cbn [rbind]. eexists. split; [reflexivity|]. split; [apply lookup_insert|].
      apply (elsewhere_fresh σ _ l o1 Hdom). fold lx σ1. apply (elsewhere_fresh σ1 _ l (OMsg (mname d') (mkMsg (default [] b) (offsets_zero 0)))); [apply elem_of_dom; eauto|].
      apply elsewhere_insert.
    + rewrite (proj2 (Z.eqb_neq _ _) Ht). change (40 + n)%nat with (20 + (20 + n))%nat.
      rewrite (acc_set fs gs Hgood Hgen Hok d Hd (Some f) Hf ltac:(done) T g (20 + n) σ l m v Hsi Hdt Hl). rewrite Hn, Hs. cbn [rbind].
      eexists. split; [reflexivity|]. split; [apply lookup_insert|apply elsewhere_insert].
  - destruct Ho as [Hsc _]. destruct (schema_repeated d k Hgd Hsc) as (f & -> & Hf & Hn & Hr & Ht).
    destruct (acc_child fs gs Hgood Hgen Hok d Hd (Some f) Hf ltac:(done) Ht) as (d' & Hd' & Ety).
    unfold struct_arg. rewrite Ety. set (lx := fresh (dom σ)). set (o1 := OMsg (mname d') _). set (σ1 := <[lx := o1]> σ).
    assert (Hx : lx <> l) by (apply (fresh_ne _ _ _ Hl)).
    assert (L1 : σ1 !! lx = Some o1) by apply lookup_insert. assert (L2 : σ1 !! l = Some (OMsg (mname d) m)) by (unfold σ1; rewrite lookup_insert_ne; done).
    rewrite (acc_AppendTo fs gs Hgood Hgen Hok d d' Hd Hd' (Some f) Hf ltac:(done) Ht Ety n σ1 l lx m _ Hr L2 L1).
    rewrite Hn. unfold m_AppendTo. cbn [m_Encode mbuf]. rewrite Hs. cbn [rbind]. eexists. split; [reflexivity|]. split; [apply lookup_insert|].
    apply (elsewhere_fresh σ _ l o1 Hdom). fold lx σ1. apply (elsewhere_fresh σ1 _ l (OMsg (mname d') (mkMsg x (offsets_zero 0)))); [apply elem_of_dom; eauto|].
    apply elsewhere_insert.
  - change (40 + n)%nat with (20 + (20 + n))%nat. rewrite (acc_Reset fs gs Hgood Hgen Hok d Hd (20 + n) σ l m None Hl). cbn [default from_option]. rewrite Hs.
    eexists. split; [reflexivity|]. split; [apply lookup_insert|apply elsewhere_insert].
  - change (40 + n)%nat with (20 + (20 + n))%nat. rewrite (acc_Decode fs gs Hgood Hgen Hok d Hd (20 + n) σ l m (Some bs) Hl). cbn [default from_option id].
    destruct (m_Decode (mtype_of d) m bs) as [[[e|] m1]| | |]; try done. cbn [rbind] in *. injection Hs as ->.
    eexists. split; [reflexivity|]. split; [apply lookup_insert|apply elsewhere_insert].
Qed.

Lemma go_run_sim n os : forall σ l m m', σ !! l = Some (OMsg (mname d) m) ->
  Forall (op_ok (Z.of_nat (alen (mtype_of d))) (schema_of d)) os -> run (mtype_of d) (schema_of d) m os = Ok m' ->
  exists σ', go_run D d (40 + n) σ l os = Ok σ' /\ σ' !! l = Some (OMsg (mname d) m') /\ elsewhere σ σ' l.
Proof using Hgood Hgen Hok Hd.
  induction os as [|o os IH]; intros σ l m m' Hl Ho Hr.
  - cbn in Hr. injection Hr as <-. exists σ. split; [done|]. split; [done|]. intros ? ? ?. done.
  - inversion Ho; subst. cbn [run] in Hr. destruct (step _ _ m o) as [m1| | |] eqn:Es; try done. cbn [rbind] in Hr.
    destruct (go_step_sim n σ l m o m1 Hl H1 Es) as (σ1 & E1 & L1 & F1).
    destruct (IH σ1 l m1 m' L1 H2 Hr) as (σ2 & E2 & L2 & F2).
    exists σ2. cbn [go_run]. rewrite E1. cbn [rbind]. split; [done|]. split; [done|].
    apply (elsewhere_trans σ σ1 σ2 l); [apply elem_of_dom; eauto|done|done].
Qed.

Lemma go_loop_sim n d' f : d' ∈ messages fs -> f ∈ d_fields d -> f <> None -> getType f = 11 -> base_name (getTypeName f) = mname d' ->
  repeated f -> forall k σ li lx i x, σ !! li = Some (OBytes (iterator d f) i) -> σ !! lx = Some (OMsg (mname d') x) ->
  go_loop D (40 + n) k σ li lx = iterate k (mtype_of d') i (getNumber f) x.
Proof using Hgood Hgen Hok Hd.
  intros Hd' Hf Hne Ht Ety Hr. induction k as [|k IH]; intros σ li lx i x Hi Hx; [done|].
  cbn [go_loop iterate]. rewrite (acc_Next fs gs Hgood Hgen Hok d d' Hd Hd' f Hf Hne Ht Ety n σ li lx i x Hr Hi Hx).
  assert (Hll : li <> lx) by (intros ->; rewrite Hi in Hx; done).
  destruct (it_Next (mtype_of d') i (getNumber f) x) as [[[[i' ok] err] x']| | |] eqn:En; try done. cbn [rbind].
  set (σ1 := <[lx := _]> _). assert (L1 : σ1 !! lx = Some (OMsg (mname d') x')) by apply lookup_insert.
  assert (L2 : σ1 !! li = Some (OBytes (iterator d f) i')) by (unfold σ1; rewrite lookup_insert_ne by done; apply lookup_insert).
  rewrite L1. destruct ok.
  - rewrite (IH σ1 li lx i' x' L2 L1). done.
  - unfold it_Next in En. destruct (FindNextField _ _ _) as [[i1 [b|]]| | |]; try done; cbn [rbind] in En.
    + destruct (m_Decode _ x b) as [[e y]| | |]; done.
    + injection En as _ <- _. done.
Qed.
Lemma go_iterate_sim n d' f σ l lx m x k : d' ∈ messages fs -> f ∈ d_fields d -> f <> None -> getType f = 11 -> base_name (getTypeName f) = mname d' ->
  repeated f -> σ !! l = Some (OMsg (mname d) m) -> σ !! lx = Some (OMsg (mname d') x) ->
  go_iterate D d (40 + n) k σ l f lx = m_iterate k (mtype_of d') m (getNumber f) x.
Proof using Hgood Hgen Hok Hd.
  intros Hd' Hf Hne Ht Ety Hr Hl Hx. unfold go_iterate, m_iterate.
  rewrite (acc_Iter fs gs Hgood Hgen Hok d d' Hd Hd' f Hf Hne Ht Ety n σ l m Hr Hl).
  destruct (m_Iter m (getNumber f)) as [i| | |]; try done. cbn [rbind].
  apply (go_loop_sim n d' f Hd' Hf Hne Ht Ety Hr); [apply lookup_insert|].
  rewrite lookup_insert_ne; [done|]. apply (fresh_ne _ _ _ Hx).
Qed.
End e2e.
