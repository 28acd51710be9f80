(** * Goroutines that follow the rule of SpecGo.v *)
From Verif Require Import GoBase Heap HeapFacts Recover RecoverFacts SpecShare.
From Verif Require Import Access AccessFacts AccessApi AccessMem AccessObj AccessSet AccessRun SpecGo AccessFork AccessRule.

(** ** One goroutine in the machine is [run] *)
Inductive tsteps {A} : heap -> prog A -> heap -> prog A -> Prop :=
| tsteps_refl H p : tsteps H p H p
| tsteps_step H p H1 p1 H2 p2 : tstep H p H1 p1 -> tsteps H1 p1 H2 p2 -> tsteps H p H2 p2.
Lemma tsteps_snoc {A} H (p : prog A) H1 p1 H2 p2 : tsteps H p H1 p1 -> tstep H1 p1 H2 p2 -> tsteps H p H2 p2.
Proof. intros T S. induction T; [eapply tsteps_step; [exact S|constructor]|]. eapply tsteps_step; eauto. Qed.
Lemma csteps_one {A} c c' : @csteps A c c' -> forall p, c.2 = [p] -> exists p', c'.2 = [p'] /\ tsteps c.1 p c'.1 p'.
Proof.
  induction 1 as [c|c1 c2 c3 H IH St]; intros p Hp; [exists p; split; [exact Hp|constructor]|].
  destruct (IH _ Hp) as (p2 & E2 & T2). destruct St as [H2 ps i q H3 q' Hq Hst]. cbn [fst snd] in *. subst ps.
  destruct i as [|i]; [|discriminate Hq]. injection Hq as <-. exists q'. split; [reflexivity|]. eapply tsteps_snoc; eassumption.
Qed.
Definition at_first (al : kind -> gset nat -> nat) (kd : kind) (d : gset nat) (id : nat) : kind -> gset nat -> nat :=
  fun kd' d' => if decide (kd' = kd /\ d' = d) then id else al kd' d'.
Lemma tsteps_run {A} H (p : prog A) H' p' : tsteps H p H' p' -> forall r, p' = Stop r -> exists al, run al ∅ H p = Some (r, H').
Proof.
  induction 1 as [H p|H p H1 p1 H2 p2 St T IH]; intros r Hr.
  - subst p. exists (fun _ _ => 0%nat). reflexivity.
  - destruct (IH _ Hr) as [al E]. destruct St as [l w k Hl|l w k Hl|kd n k id Hf].
    + exists al. cbn [run]. rewrite Hl. exact E.
    + exists al. cbn [run]. destruct Hl as [x Hx]. rewrite Hx, decide_False by set_solver. exact E.
    + assert (Hid : id ∉ ids kd H). { intros Hi. apply elem_ids in Hi as (l & w & Hl & Eb). exact (Hf _ _ Hl Eb). }
      exists (at_first al kd (ids kd H) id). cbn [run]. rewrite (pick_chosen _ _ id); [|unfold at_first; rewrite decide_True by auto; reflexivity|exact Hid].
      rewrite <- E. apply run_after. intros kd' d Hd. unfold at_first. rewrite decide_False; [reflexivity|].
      intros [-> ->]. rewrite ids_new in Hd. set_solver.
Qed.
Lemma begins {A} (p : prog A) G r : csteps (∅, [p]) (G, [Stop r]) -> exists al, run al ∅ ∅ p = Some (r, G).
Proof. intros H. destruct (csteps_one _ _ H p eq_refl) as (p' & [= <-] & T). eapply tsteps_run; [exact T|reflexivity]. Qed.
Lemma run_tsteps {A} al (p : prog A) : forall H r H', run al ∅ H p = Some (r, H') -> tsteps H p H' (Stop r).
Proof.
  induction p as [r0|l k IH|l w k IH|kd n k IH]; intros H r H'; cbn [run].
  - intros [= -> ->]. constructor.
  - destruct (H !! l) as [w|] eqn:E; [|discriminate]. intros HR. eapply tsteps_step; [constructor; exact E|]. eapply IH, HR.
  - destruct (H !! l) eqn:E; [|discriminate]. rewrite decide_False by set_solver. intros HR. eapply tsteps_step; [constructor; eauto|]. eapply IH, HR.
  - intros HR. eapply tsteps_step; [constructor|eapply IH, HR]. intros l w Hl Eb. apply (pick_fresh (al kd) (ids kd H)). apply elem_ids. eauto.
Qed.
Lemma csteps_first {A} (c c1 c2 : heap * list (prog A)) : cstep c c1 -> csteps c1 c2 -> csteps c c2.
Proof. intros H H2. eapply csteps_trans; [|exact H2]. eapply csteps_step; [constructor|exact H]. Qed.
Lemma tsteps_one {A} H (p : prog A) H' p' : tsteps H p H' p' -> csteps (H, [p]) (H', [p']).
Proof. induction 1; [constructor|]. eapply csteps_first; [|eassumption]. apply (cstep_thread _ [p] 0 p _ p1); [reflexivity|assumption]. Qed.
Lemma run_begins {A} al (p : prog A) r G : run al ∅ ∅ p = Some (r, G) -> csteps (∅, [p]) (G, [Stop r]).
Proof. intros H. apply tsteps_one. eapply run_tsteps, H. Qed.

(** ** Rights and rule suffice *)
Definition plan_of (t : task) : plan := mkPlan (use_struct (may t)) (use_slice (may t)) (todo t).

Section go.
Context (more : nat) (grow : Z -> Z -> Z) (setup : list act) (obs : list (option SpecShare.seen)) (R : regs) (G : heap).

Lemma rule_behaves owner i t : grants owner i R G (may t) -> Forall (follows (length (objs R)) (length (held R)) (may t)) (todo t) ->
  (forall k id, owner (Made k id) = None) -> well_behaved more grow setup obs R G owner i (plan_of t).
Proof.
  intros [G1 G2] Hf Ho al P Hs EP. destruct (begin_ok _ _ _ _ _ _ _ Hs) as (P0 & EP0 & HP). rewrite EP in EP0. injection EP0 as <-.
  cbn [plan_of uses_structs uses_slices actions].
  assert (HO : forall j mt o h, objs R !! j = Some (mt, o) -> p_objs P !! j = Some (mt, h) -> own G (p_mem P) (alen mt) o h).
  { intros j mt o h E1 E2. destruct HP as (_ & _ & H2 & _). destruct (H2 _ _ _ E1 E2) as (_ & _ & H). apply H. left. exact Logic.I. }
  assert (W : within owner i R P (use_struct (may t)) (use_slice (may t))).
  { split.
    - intros j mt o h U E1 E2. pose proof (HO _ _ _ _ E1 E2) as ((O1 & O2 & _) & _). destruct (G1 _ _ _ U E1) as (A & B & C). split_and!.
      + intros l Hl. apply A, Hl.
      + intros a b Hw. exact (proj1 (C _ _ _ O1 Hw)).
      + intros l Hl. rewrite Hl in O2. exact (proj1 (B _ O2)).
    - intros k s a b U E Hw. exact (proj1 (G2 _ _ _ _ U E Hw)). }
  split; [exact W|].
  pose proof (marked_G more grow setup obs R G al Hs) as HM.
  pose proof (holds_within _ _ _ _ _ _ _ _ HM Ho HP W) as H.
  assert (Hne : forall l, owner l = Some i -> l ∉ shared owner G) by (intros l E HR; apply shared_dom in HR as [_ HR]; congruence).
  eapply (follows_keeps al (shared owner G) R (may t) more grow).
  - intros j U Wr mt o E l Hl. apply Hne. destruct (G1 _ _ _ U E) as (A & _). destruct (A _ Hl) as [_ A2]. auto.
  - exact H.
  - intros j x Hx. left. exact Hx.
  - split_and!.
    + destruct HP as (_ & L & _). rewrite L. reflexivity.
    + destruct HP as (_ & _ & _ & _ & L & _). rewrite L. reflexivity.
    + intros j mt h E U. pose proof HP as (_ & L & H2 & _). assert (is_Some (objs R !! j)) as [[mt' o] Ej] by (apply lookup_lt_is_Some; rewrite L; eapply lookup_lt_Some, E).
      destruct (H2 _ _ _ Ej E) as (Emt & _ & _). cbn in Emt. subst mt'. destruct U as [U|U]; [|apply lookup_lt_Some in Ej; lia].
      pose proof (HO _ _ _ _ Ej E) as ((O1 & O2 & _) & _). destruct (G1 _ _ _ U Ej) as (A & B & C). split.
      * intros Wr l Hl. apply Hne. rewrite Hl in O2. destruct (B _ O2) as [_ B2]. auto.
      * intros Wr a b Hw. apply Hne. destruct (C _ _ _ O1 Hw) as [_ C2]. auto.
    + intros k s E V Wr. destruct HP as (_ & _ & _ & _ & L & _). rewrite <- L in E. pose proof (lookup_lt_Some _ _ _ E) as Hk.
      destruct V as [V|V]; [|lia]. destruct Wr as [[_ Wr]|[Wr _]]; [|lia]. intros a b Hw. apply Hne. destruct (G2 _ _ _ _ V E Hw) as [_ A2]. auto.
  - exact Hf.
Qed.

Lemma zlen_length {A} (l : list A) : zlen l = Z.of_nat (length l).
Proof. reflexivity. Qed.
Lemma knows_bytes_at al RO T σ s G' : rep al RO T σ -> knows T σ s -> T ⊆ G' -> bytes_at G' s (sbytes σ s).
Proof.
  intros HR [Ws K] HT. destruct s as [s|]; [|reflexivity]. destruct Ws as (l & El & H1 & H2 & H3). cbn [bytes_at sbytes].
  assert (Ea : arr_of σ (sarr s) = l) by (unfold arr_of; rewrite El; reflexivity). rewrite Ea. unfold zlen in *. split.
  - rewrite take_length, drop_length. lia.
  - intros j z Hj. pose proof (lookup_lt_Some _ _ _ Hj) as Hl. rewrite take_length, drop_length in Hl.
    assert (D : Byte (sarr s) (soff s + Z.of_nat j) ∈ dom T) by (apply K; cbn; lia). apply elem_of_dom in D as [w Hw].
    destruct (rep_byte _ _ _ _ HR _ _ _ Hw) as (z' & -> & Hz). eapply lookup_weaken; [|exact HT]. rewrite Hw. do 2 f_equal.
    unfold Heap.cell in Hz. rewrite (proj2 (Z.leb_le _ _)) in Hz by lia. rewrite Ea in Hz. rewrite lookup_take in Hj by lia. rewrite lookup_drop in Hj.
    replace (Z.to_nat (soff s + Z.of_nat j)) with (Z.to_nat (soff s) + j)%nat in Hz by lia. congruence.
Qed.
Lemma own_struct_at al RO T σ n o h G' : rep al RO T σ -> own T σ n o h -> T ⊆ G' -> struct_at G' σ o h.
Proof.
  intros HR ((O1 & O2 & O3 & O4) & K & M) HT. split_and!.
  - eapply lookup_weaken; eassumption.
  - eapply knows_bytes_at; eassumption.
  - eapply lookup_weaken; eassumption.
  - intros l Hl. unfold has_map in M. rewrite Hl in M. destruct M as (m & Hm & Hd). exists m. split; [exact Hm|]. eapply lookup_weaken; [|exact HT]. eapply rep_table; eassumption.
  - intros i x Hx. eapply lookup_weaken; [eauto|exact HT].
Qed.
Lemma holds_agrees al RO rt T R' P G' : holds al RO R (use_struct rt) (use_slice rt) T R' P -> T ⊆ G' -> agrees rt R G' R' P.
Proof.
  intros (HR & HL & H2 & _ & H4 & H5) HT. split; [exact H4|]. split; [|split; [exact HL|]].
  - intros k s V E. eapply knows_bytes_at; [exact HR| |exact HT]. exact (H5 _ _ E V).
  - intros i mt o U E. assert (is_Some (p_objs P !! i)) as [[mt' h] Eh] by (apply lookup_lt_is_Some; rewrite <- HL; eapply lookup_lt_Some, E).
    destruct (H2 _ _ _ E Eh) as (Emt & _ & HO). cbn in Emt. subst mt'. exists h. split; [exact Eh|]. eapply own_struct_at; [exact HR|exact (HO U)|exact HT].
Qed.
End go.
