(** * Sections under a lock execute one after the other *)
From Verif Require Import GoBase Heap HeapFacts SpecShare Recover RecoverFacts.
From Verif Require Import Access AccessFacts AccessApi AccessMem AccessObj AccessSet AccessRun SpecGo AccessFork AccessRule AccessGo P_Go SpecLock.

(** ** Histories *)
Lemma written_app h1 h2 : written (h1 ++ h2) = written h1 ++ written h2.
Proof. induction h1 as [|[[i [a|a]] l] h1 IH]; cbn; [reflexivity| |exact IH]. rewrite IH, <- app_assoc. reflexivity. Qed.
Lemma reported_app h1 h2 : reported (h1 ++ h2) = reported h1 ++ reported h2.
Proof. induction h1 as [|[[i [a|a]] l] h1 IH]; cbn; [reflexivity| |exact IH]. rewrite IH, <- app_assoc. reflexivity. Qed.
Lemma seen_by_app i h1 h2 : seen_by i (h1 ++ h2) = seen_by i h1 ++ seen_by i h2.
Proof. induction h1 as [|[[j c] l] h1 IH]; cbn; [reflexivity|]. destruct (Nat.eqb i j); rewrite IH; reflexivity. Qed.

(** ** One program after another *)
Lemma tsteps_catch {A B} (f : res A -> prog B) H p H' p' : tsteps H p H' p' -> tsteps H (catch p f) H' (catch p' f).
Proof.
  induction 1 as [H p|H p H1 p1 H2 p2 St _ IH]; [constructor|]. eapply tsteps_step; [|exact IH].
  destruct St as [l w k E|l w k E|kd n k id E]; cbn [catch].
  - exact (step_load H l w (fun w => catch (k w) f) E).
  - constructor; assumption.
  - exact (step_new H kd n (fun id => catch (k id) f) id E).
Qed.
Lemma tsteps_trans {A} H (p : prog A) H1 p1 H2 p2 : tsteps H p H1 p1 -> tsteps H1 p1 H2 p2 -> tsteps H p H2 p2.
Proof. intros T. revert H2 p2. induction T; intros; [assumption|]. eapply tsteps_step; [eassumption|]. auto. Qed.
Lemma tsteps_bind {A B} (f : A -> prog B) H p H' a : tsteps H p H' (Stop (Ok a)) -> tsteps H (bind p f) H' (f a).
Proof. intros T. exact (tsteps_catch _ _ _ _ _ T). Qed.
Lemma tsteps_then {A B} (f : A -> prog B) H p H' a q : tsteps H p H' (Stop (Ok a)) -> f a = q -> tsteps H (bind p f) H' q.
Proof. intros T <-. exact (tsteps_bind _ _ _ _ _ T). Qed.

Lemma tsteps_uncatch {A B} (p : prog A) (f : res A -> prog B) : forall H H' r, tsteps H (catch p f) H' (Stop r) ->
  exists H1 r1, tsteps H p H1 (Stop r1) /\ tsteps H1 (f r1) H' (Stop r).
Proof.
  induction p as [r0|l k IH|l w k IH|kd n k IH]; cbn [catch]; intros H H' r T.
  - exists H, r0. split; [constructor|exact T].
  - inversion T as [|? ? H1 p1 ? ? St T2]; subst. inversion St; subst. destruct (IH _ _ _ _ T2) as (H2 & r1 & T3 & T4). exists H2, r1. split; [|exact T4].
    eapply tsteps_step; [constructor; eassumption|exact T3].
  - inversion T as [|? ? H1 p1 ? ? St T2]; subst. inversion St; subst. destruct (IH _ _ _ T2) as (H2 & r1 & T3 & T4). exists H2, r1. split; [|exact T4].
    eapply tsteps_step; [constructor; eassumption|exact T3].
  - inversion T as [|? ? H1 p1 ? ? St T2]; subst. inversion St; subst. destruct (IH _ _ _ _ T2) as (H2 & r1 & T3 & T4). exists H2, r1. split; [|exact T4].
    eapply tsteps_step; [constructor; eassumption|exact T3].
Qed.
Lemma tsteps_stop {A} H (r : res A) H' p : tsteps H (Stop r) H' p -> H' = H /\ p = Stop r.
Proof. intros T. inversion T as [|? ? ? ? ? ? St _]; subst; [auto|]. inversion St. Qed.

Section clients.
Context (more : nat) (grow : Z -> Z -> Z).
Notation client := (c_client more grow).
(** [p'] in the place of [p], [l] having been seen before. *)
Definition continues (l : list (option SpecShare.seen)) (p p' : prog (list (option SpecShare.seen) * regs)) : Prop :=
  (forall x, next p = Some x -> next p' = Some x) /\ forall l2 R, p = Stop (Ok (l2, R)) -> p' = Stop (Ok (l ++ l2, R)).
Lemma continues_one o l p p' : continues l p p' -> continues (o :: l) p (let! (l, R) := p' in ret (o :: l, R)).
Proof.
  intros [H1 H2]. split.
  - intros x Hx. specialize (H1 x Hx). destruct p'; cbn in *; congruence.
  - intros l2 R E. rewrite (H2 _ _ E). reflexivity.
Qed.
Lemma client_app acts2 acts : forall R H l R' K, tsteps H (client R acts) K (Stop (Ok (l, R'))) ->
  forall K' p, tsteps K (client R' acts2) K' p -> exists p', tsteps H (client R (acts ++ acts2)) K' p' /\ continues l p p'.
Proof.
  induction acts as [|a acts IH]; intros R H l R' K T K' p T2.
  - cbn [c_client] in T. apply tsteps_stop in T as [-> [= -> ->]]. exists p. split; [exact T2|]. split; [auto|]. intros l2 R2 ->. reflexivity.
  - cbn [c_client app] in *. apply tsteps_uncatch in T as (H1 & r1 & T1 & T3).
    assert (HX : forall R1 o, tsteps H1 (let! (l, R) := client R1 acts in ret (o :: l, R)) K (Stop (Ok (l, R'))) ->
      exists p', tsteps H1 (let! (l, R) := client R1 (acts ++ acts2) in ret (o :: l, R)) K' p' /\ continues l p p').
    { intros R1 o T4. apply tsteps_uncatch in T4 as (H2 & [[l1 R2]| | |] & T5 & T6); apply tsteps_stop in T6 as [-> E]; try discriminate. injection E as -> ->.
      destruct (IH _ _ _ _ _ T5 _ _ T2) as (p' & T7 & C). exists (let! (l, R) := p' in ret (o :: l, R)). split; [apply tsteps_catch, T7|apply continues_one, C]. }
    destruct r1 as [[o R1]| | |]; [| |apply tsteps_stop in T3 as [_ T3]; discriminate..].
    + destruct (HX _ _ T3) as (p' & T7 & C). exists p'. split; [|exact C]. eapply tsteps_trans; [apply tsteps_catch, T1|exact T7].
    + destruct (HX _ _ T3) as (p' & T7 & C). exists p'. split; [|exact C]. eapply tsteps_trans; [apply tsteps_catch, T1|exact T7].
Qed.
Lemma client_safe acts al : run al ∅ ∅ (client no_regs acts) <> None.
Proof.
  pose proof (client_ok al ∅ no_regs all all more grow acts ∅ no_regs _ (holds_empty al all all) newer_empty (keeps_empty grow all all acts _)) as H.
  unfold wp in H. destruct (run al ∅ ∅ _); [discriminate|contradiction].
Qed.
End clients.
Lemma tsteps_safe {A} (p : prog A) G q : (forall al, run al ∅ ∅ p <> None) -> tsteps ∅ p G q -> forall l b, next q = Some (l, b) -> is_Some (G !! l).
Proof.
  intros Hs HT l b Hn. apply tsteps_one in HT.
  destruct (no_interference ∅ [mkGo ∅ ∅ p] G [q]) as (_ & Hw & _).
  - split; [|intros i j g1 g2 l0 Hij H1 H2; destruct i; [destruct j; [congruence|discriminate]|discriminate]].
    intros i g Hg. destruct i; [|discriminate Hg]. injection Hg as <-. cbn. split; [apply map_empty_subseteq|set_solver].
  - intros i g al Hg. destruct i; [|discriminate Hg]. injection Hg as <-. apply Hs.
  - exact HT.
  - destruct (G !! l) eqn:E; [eauto|]. exfalso. apply Hw. exists 0%nat, q, l, b. auto.
Qed.

(** The same step in part of the memory. *)
Lemma tstep_part {A} G (p : prog A) G' p' K : tstep G p G' p' -> K ⊆ G -> (forall l b, next p = Some (l, b) -> is_Some (K !! l)) ->
  exists K', tstep K p K' p' /\ K' ⊆ G'.
Proof.
  intros [l w k H|l w k H|kd n k id H] HK Hn.
  - destruct (Hn _ _ eq_refl) as [x Hx]. pose proof (lookup_weaken _ _ _ _ Hx HK). assert (x = w) as -> by congruence. exists K. split; [constructor; exact Hx|exact HK].
  - exists (<[l := w]> K). split; [constructor; eapply Hn; reflexivity|apply insert_mono, HK].
  - exists (new_cells kd n id ∪ K). split; [|apply map_union_mono_l, HK]. constructor. intros l w Hl. eapply H. eapply lookup_weaken; eassumption.
Qed.

(** ** Goroutines that only read *)
Definition nobody : loc -> option nat := fun _ => None.
Lemma known_all i K : known nobody i K = K.
Proof. apply map_eq. intros l. apply option_eq. intros w. rewrite known_lookup. unfold may_read, nobody. tauto. Qed.
Lemma shared_all K : shared nobody K = dom K.
Proof. apply leibniz_equiv. intros l. rewrite shared_dom. unfold nobody. tauto. Qed.
Lemma grants_reading i R K view : grants nobody i R K (reading (length (objs R)) view).
Proof.
  split; [|intros k s a b _ _ _; split; [left; reflexivity|intros []]]. cbn [put_struct put_buffer reading]. intros j mt o _ Ej. apply lookup_lt_Some in Ej. split_and!.
  - intros l _. split; [left; reflexivity|intros H; lia].
  - intros l _. split; [left; reflexivity|intros H; lia].
  - intros s a b _ _. split; [left; reflexivity|intros [H _]; lia].
Qed.
Lemma follows_reading n m view acts : Forall (only_reads n view) acts -> Forall (follows n m (reading n view)) acts.
Proof. intros H. eapply Forall_impl; [exact H|]. intros a. unfold reading. clear. destruct a; cbn; unfold uses, sees, writes; cbn; tauto. Qed.

Section readers.
Context (more : nat) (grow : Z -> Z -> Z) (acts0 : list act) (obs : list (option SpecShare.seen)) (R : regs) (K : heap).
Context (HK : tsteps ∅ (c_client more grow no_regs acts0) K (Stop (Ok (obs, R)))).

Lemma begin_holds : exists al P, Recover.rrun (lift_grow grow) (p_empty (allocator_of al)) acts0 = (obs, Ok P) /\ holds al ∅ no_regs all all K R P.
Proof. destruct (tsteps_run _ _ _ _ HK _ eq_refl) as [al Hr]. destruct (begin_ok _ _ _ _ _ _ _ Hr) as (P & H). eauto. Qed.

(** Any program after [acts0]. *)
Lemma writer_run acts K' l R' : tsteps K (c_client more grow R acts) K' (Stop (Ok (l, R'))) ->
  exists al P P', Recover.rrun (lift_grow grow) (p_empty al) acts0 = (obs, Ok P) /\ held R = p_held P /\ length (objs R) = length (p_objs P) /\
    Recover.rrun (lift_grow grow) P acts = (l, Ok P').
Proof.
  intros T. destruct (tsteps_run _ _ _ _ HK _ eq_refl) as [al0 Hr0]. destruct (tsteps_run _ _ _ _ T _ eq_refl) as [al Hr].
  pose proof (then_before more grow acts0 obs R K al0 Hr0 al) as Hb. destruct (begin_ok _ _ _ _ _ _ _ Hb) as (P & EP & HP).
  assert (Hn : newer ∅ no_regs R) by (intros i x Hx; right; intros; set_solver).
  pose proof (client_ok _ ∅ no_regs all all more grow acts _ _ _ HP Hn (keeps_empty grow all all acts P)) as HC. unfold wp in HC.
  rewrite (then_after K al0 al) in HC by reflexivity. rewrite Hr in HC. cbv zeta in HC.
  pose proof HP as (_ & HL & _ & _ & HH & _). exists (allocator_of (then_al K al0 al)), P.
  destruct (Recover.rrun (lift_grow grow) P acts) as [l2 [P2| | |]]; cbn [fst snd] in HC; try discriminate; [|contradiction].
  destruct HC as (R2 & [= <- <-] & _). exists P2. auto.
Qed.

(** A reader. *)
Lemma reader_run acts view al : Forall (only_reads (length (objs R)) view) acts ->
  exists r T, run al (dom K) K (c_client more grow R acts) = Some (r, T) /\
    forall l R', r = Ok (l, R') -> exists al P P', Recover.rrun (lift_grow grow) (p_empty al) acts0 = (obs, Ok P) /\
      held R = p_held P /\ length (objs R) = length (p_objs P) /\ Recover.rrun (lift_grow grow) P acts = (l, Ok P').
Proof.
  intros HF. destruct (tsteps_run _ _ _ _ HK _ eq_refl) as [al0 Hr0].
  set (t := mkTask (reading (length (objs R)) view) acts).
  assert (HW : well_behaved more grow acts0 obs R K nobody 0 (plan_of t)).
  { apply rule_behaves; [apply grants_reading|apply follows_reading, HF|reflexivity]. }
  pose proof (marked_G more grow acts0 obs R K al0 Hr0) as HM.
  destruct (begin_ok _ _ _ _ _ _ _ (then_before more grow acts0 obs R K al0 Hr0 al)) as (P & EP & HP).
  destruct (HW _ _ (then_before more grow acts0 obs R K al0 Hr0 al) EP) as [W Kp].
  pose proof (holds_within _ _ _ _ _ _ _ _ HM (fun _ _ => eq_refl) HP W) as H. rewrite shared_all, known_all in H. rewrite shared_all in Kp.
  assert (Hn : newer (dom K) R R) by (intros j x Hx; left; exact Hx).
  pose proof (client_ok _ _ _ _ _ more grow acts _ _ _ H Hn Kp) as HC. unfold wp in HC.
  rewrite (then_after K al0 al) in HC by reflexivity.
  destruct (run al _ _ _) as [[r T']|]; [|contradiction]. exists r, T'. split; [reflexivity|]. intros l R' ->. cbv zeta in HC.
  pose proof HP as (_ & HL & _ & _ & HH & _). exists (allocator_of (then_al K al0 al)), P.
  destruct (Recover.rrun (lift_grow grow) P acts) as [l2 [P2| | |]]; cbn [fst snd] in HC; try discriminate; [|contradiction].
  destruct HC as (R2 & [= <- <-] & _). exists P2. auto.
Qed.
End readers.

(** Goroutines that all know of [K] and only read it. *)
Notation greader := (@AccessFacts.goroutine (list (option SpecShare.seen) * regs)).
Definition all_read (K : heap) (gos : list greader) : Prop :=
  forall i g, gos !! i = Some g -> g_knows g = K /\ g_shared g = dom K /\ forall al, run al (dom K) K (g_prog g) <> None.
Lemma all_read_separated K gos : all_read K gos -> separated K gos.
Proof.
  intros H. split.
  - intros i g Hg. destruct (H _ _ Hg) as (-> & -> & _). split; reflexivity.
  - intros i j g1 g2 l _ H1 H2. destruct (H _ _ H1) as (-> & -> & _). intros H3 H4. contradiction.
Qed.
Lemma all_read_part K gos G ps Ts : all_read K gos -> cinv K gos G ps Ts -> K ⊆ G.
Proof.
  intros H (_ & _ & _ & _ & Hk & _). apply map_subseteq_spec. intros l w Hl. rewrite <- Hl. apply Hk; [apply elem_of_dom; eauto|].
  intros i g Hg. destruct (H _ _ Hg) as (-> & -> & _). auto.
Qed.
Definition idle (K : heap) : greader := mkGo K (dom K) (Stop Panic).
Lemma tinv_begin K G (p : prog (list (option SpecShare.seen) * regs)) : K ⊆ G -> (forall al, run al (dom K) K p <> None) -> tinv (dom K) K p G K p.
Proof.
  intros HK Hs. split; [exact Hs|]. split; [exact HK|]. split; [reflexivity|].
  exists []. split_and!; [exists (fun _ _ => 0%nat); intros kd d a H; inversion H|reflexivity|intros kd d a H; inversion H].
Qed.
Lemma cinv_idle K G n : K ⊆ G -> cinv K (replicate n (idle K)) G (replicate n (Stop Panic)) (replicate n K).
Proof.
  intros HK. split_and!; rewrite ?replicate_length; try reflexivity.
  - intros i g p T Hg Hp HT. apply lookup_replicate in Hg as [-> _]. apply lookup_replicate in Hp as [-> _]. apply lookup_replicate in HT as [-> _].
    split; [|reflexivity]. apply tinv_begin; [exact HK|discriminate].
  - intros i j g T1 T2 l _ Hg H1 H2 Hl Hn. apply lookup_replicate in Hg as [-> _]. apply lookup_replicate in H1 as [-> _]. contradiction.
  - intros l Hl _. apply elem_of_dom in Hl as [w Hw]. rewrite Hw. eapply lookup_weaken; eassumption.
  - apply subseteq_dom, HK.
  - intros i g T l Hg HT Hl. apply lookup_replicate in Hg as [-> _]. apply lookup_replicate in HT as [-> _]. left. exact Hl.
Qed.
Lemma all_read_idle K n : all_read K (replicate n (idle K)).
Proof. intros i g Hg. apply lookup_replicate in Hg as [-> _]. split_and!; [reflexivity..|discriminate]. Qed.
(** One of them begins anew. *)
Lemma all_read_put K gos i p : all_read K gos -> (forall al, run al (dom K) K p <> None) -> all_read K (<[i := mkGo K (dom K) p]> gos).
Proof. intros H Hp j g Hg. apply list_lookup_insert_Some in Hg as [(-> & <- & _)|[_ Hg]]; [|eauto]. auto. Qed.
Lemma cinv_put K gos G ps Ts i p : all_read K gos -> cinv K gos G ps Ts -> (forall al, run al (dom K) K p <> None) ->
  cinv K (<[i := mkGo K (dom K) p]> gos) G (<[i := p]> ps) (<[i := K]> Ts).
Proof.
  intros HA HC Hp. pose proof (all_read_part _ _ _ _ _ HA HC) as HK. destruct HC as (L1 & L2 & Hi & Hd & Hk & HG & Hn). split_and!; rewrite ?insert_length; auto.
  - intros j g q T Hg Hq HT. apply list_lookup_insert_Some in Hg as [(-> & <- & Hlt)|[Hne Hg]].
    + rewrite list_lookup_insert in Hq by lia. rewrite list_lookup_insert in HT by lia. injection Hq as <-. injection HT as <-. cbn [g_knows g_shared g_prog].
      split; [|reflexivity]. apply tinv_begin; assumption.
    + rewrite list_lookup_insert_ne in Hq by congruence. rewrite list_lookup_insert_ne in HT by congruence. eauto.
  - intros a b g T1 T2 l Hab Hg H1 H2 Hl Hno. apply list_lookup_insert_Some in Hg as [(-> & <- & Hlt)|[Hne Hg]].
    + rewrite list_lookup_insert in H1 by lia. injection H1 as <-. contradiction.
    + rewrite list_lookup_insert_ne in H1 by congruence. apply list_lookup_insert_Some in H2 as [(-> & <- & _)|[_ H2]]; [|eauto].
      destruct (HA _ _ Hg) as (_ & E & _). rewrite E in Hno. exact Hno.
  - intros l Hl Hall. apply Hk; [exact Hl|]. intros j g Hg _. destruct (HA _ _ Hg) as (_ & -> & _). exact Hl.
  - intros j g T l Hg HT Hl. apply list_lookup_insert_Some in Hg as [(-> & <- & Hlt)|[Hne Hg]].
    + rewrite list_lookup_insert in HT by lia. injection HT as <-. left. exact Hl.
    + rewrite list_lookup_insert_ne in HT by congruence. eauto.
Qed.

(** ** The invariant *)
Section locked.
Context (more : nat) (grow : Z -> Z -> Z) (setup : list act) (obs : seen_in) (gs : list goroutine) (Hread : keep_rlock gs).
Notation client := (c_client more grow).
Definition chooses (past : list (list seen_in)) (R : regs) (i : nat) : option critical :=
  match gs !! i, past !! i with Some g, Some h => g h (held R) (length (objs R)) | _, _ => None end.
Lemma chooses_other past R i j f : i <> j -> chooses (alter f i past) R j = chooses past R j.
Proof. intros H. unfold chooses. rewrite list_lookup_alter_ne by exact H. reflexivity. Qed.
Lemma chooses_read past R i acts : chooses past R i = Some (Read acts) -> exists view, Forall (only_reads (length (objs R)) view) acts.
Proof.
  unfold chooses. destruct (gs !! i) as [g|] eqn:E; [|discriminate]. destruct (past !! i) as [h|]; [|discriminate]. intros H. eapply Hread; [|exact H].
  apply elem_of_list_In. eapply elem_of_list_lookup_2, E.
Qed.

Definition past_of (h : history) (past : list (list seen_in)) : Prop :=
  length past = length gs /\ (forall i x, past !! i = Some x -> x = seen_by i h) /\
  forall h1 i c l h2, h = h1 ++ (i, c, l) :: h2 -> section_runs grow setup obs gs h1 i c l.
Definition core (h : history) (K : heap) (w : world) : Prop :=
  past_of h (w_past w) /\ length (w_now w) = length gs /\
  tsteps ∅ (client no_regs (setup ++ written h)) K (Stop (Ok (obs ++ reported h, w_vars w))).
Definition reading_phase (K : heap) (w : world) : Prop :=
  exists gos Ts, all_read K gos /\ cinv K gos (w_mem w) (map executes (w_now w)) Ts /\
    forall i st, w_now w !! i = Some st ->
      match st with
      | Outside => True
      | Reading _ => exists acts g, chooses (w_past w) (w_vars w) i = Some (Read acts) /\ gos !! i = Some g /\ g_prog g = client (w_vars w) acts
      | Writing _ => False
      end.
Definition writing_phase (K : heap) (w : world) : Prop :=
  exists i p acts K', w_now w !! i = Some (Writing p) /\ (forall j st, j <> i -> w_now w !! j = Some st -> st = Outside) /\
    chooses (w_past w) (w_vars w) i = Some (Write acts) /\ tsteps K (client (w_vars w) acts) K' p /\ K' ⊆ w_mem w.
Definition inv (w : world) : Prop := exists h K, core h K w /\ (reading_phase K w \/ writing_phase K w).

Lemma quiet K w : K ⊆ w_mem w -> (forall i st, w_now w !! i = Some st -> st = Outside) -> reading_phase K w.
Proof.
  intros HK Hall. exists (replicate (length (w_now w)) (idle K)), (replicate (length (w_now w)) K). split; [apply all_read_idle|]. split.
  - replace (map executes (w_now w)) with (replicate (length (w_now w)) (Stop Panic : prog (seen_in * regs))); [apply cinv_idle, HK|].
    apply list_eq. intros i. rewrite list_lookup_fmap. destruct (w_now w !! i) as [st|] eqn:E.
    + rewrite (Hall _ _ E). cbn. apply lookup_replicate. split; [reflexivity|eapply lookup_lt_Some, E].
    + apply lookup_replicate_None. apply lookup_ge_None in E. lia.
  - intros i st Hi. rewrite (Hall _ _ Hi). exact I.
Qed.
Lemma inv_start G R : csteps (∅, [client no_regs setup]) (G, [Stop (Ok (obs, R))]) -> inv (begins_at gs G R).
Proof.
  intros H. destruct (csteps_one _ _ H _ eq_refl) as (p & [= <-] & T). cbn [fst] in T. exists [], G. split.
  - cbn [begins_at]. split; [|split; cbn [w_now w_vars written reported]; [apply map_length|rewrite !app_nil_r; exact T]]. cbn [w_past]. split; [apply map_length|]. split.
    + intros i x Hx. change (((fun _ => []) <$> gs) !! i = Some x) in Hx. rewrite list_lookup_fmap in Hx. destruct (gs !! i); [|discriminate Hx]. injection Hx as <-. reflexivity.
    + intros h1 i c l h2 E. destruct h1; discriminate E.
  - left. apply quiet; [reflexivity|]. intros i st Hx. change (((fun _ => Outside) <$> gs) !! i = Some st) in Hx. rewrite list_lookup_fmap in Hx. destruct (gs !! i); [|discriminate Hx]. injection Hx as <-. reflexivity.
Qed.

Lemma past_snoc h past i c l : past_of h past -> section_runs grow setup obs gs h i c l -> past_of (h ++ [(i, c, l)]) (alter (fun x => x ++ [l]) i past).
Proof.
  intros (L & H1 & H2) HS. split; [rewrite alter_length; exact L|]. split.
  - intros j x. rewrite seen_by_app. cbn [seen_by]. destruct (Nat.eqb j i) eqn:Eb; [apply Nat.eqb_eq in Eb as ->|apply Nat.eqb_neq in Eb].
    + rewrite list_lookup_alter. destruct (past !! i) eqn:Ex; [|discriminate]. intros [= <-]. rewrite (H1 _ _ Ex). reflexivity.
    + rewrite list_lookup_alter_ne by congruence. rewrite app_nil_r. auto.
  - intros h1 j c2 l2 h2 E. destruct h2 as [|y h2 _] using rev_ind.
    + apply app_inj_tail in E as [<- [= <- <- <-]]. exact HS.
    + rewrite app_comm_cons, app_assoc in E. apply app_inj_tail in E as [E _]. eapply H2, E.
Qed.
Lemma section_now h K w i c l : core h K w -> chooses (w_past w) (w_vars w) i = Some c ->
  (exists al P P', Recover.rrun (lift_grow grow) (p_empty al) (setup ++ written h) = (obs ++ reported h, Ok P) /\
     held (w_vars w) = p_held P /\ length (objs (w_vars w)) = length (p_objs P) /\ Recover.rrun (lift_grow grow) P (acts_of c) = (l, Ok P')) ->
  section_runs grow setup obs gs h i c l.
Proof.
  intros ((_ & Hp & _) & _) Hc (al & P & P' & H1 & H2 & H3 & H4). unfold chooses in Hc. destruct (gs !! i) as [g|] eqn:Eg; [|discriminate].
  destruct (w_past w !! i) as [x|] eqn:Ex; [|discriminate]. exists al, g, P, P'. rewrite (Hp _ _ Ex), H2, H3 in Hc. auto.
Qed.
Lemma core_past h K w G now : length now = length gs -> core h K w -> core h K (mkWorld G (w_vars w) (w_past w) now).
Proof. intros L (H1 & _ & H3). split_and!; assumption. Qed.

(** What the writer executes is part of a program that starts with nothing. *)
Lemma writer_safe h K w acts K' p : core h K w -> tsteps K (client (w_vars w) acts) K' p -> forall l b, next p = Some (l, b) -> is_Some (K' !! l).
Proof.
  intros (_ & _ & HT) T l b Hn. destruct (client_app _ _ _ _ _ _ _ _ _ HT _ _ T) as (p' & T' & C & _).
  eapply (tsteps_safe (client no_regs ((setup ++ written h) ++ acts)) _ p'); [apply client_safe|exact T'|apply C, Hn].
Qed.
Lemma reader_safe h K w i acts al : core h K w -> chooses (w_past w) (w_vars w) i = Some (Read acts) -> run al (dom K) K (client (w_vars w) acts) <> None.
Proof.
  intros (_ & _ & HT) Hc. destruct (chooses_read _ _ _ _ Hc) as [view HF]. destruct (reader_run _ _ _ _ _ _ HT acts view al HF) as (r & T & E & _). rewrite E. discriminate.
Qed.

Lemma inv_step w w' : inv w -> lstep more grow gs w w' -> inv w'.
Proof.
  intros (h & K & HC & HI) St. destruct St as [G R past now i acts Hi Hall Hw|G R past now i acts Hi Hall Hw|G R past now i p G' p' Hi St|G R past now i p G' p' Hi St|G R past now i l R' Hi|G R past now i l R' Hi];
    pose proof (lookup_lt_Some _ _ _ Hi) as Hlt.
  - (* Lock *)
    exists h, K. split; [apply (core_past _ _ _ _ _ ltac:(rewrite insert_length; exact (proj1 (proj2 HC))) HC)|]. right.
    destruct HI as [(gos & Ts & HA & HI & _)|(j & p & acts2 & K' & Hj & _)]; [|specialize (Hall _ _ Hj); discriminate Hall].
    exists i, (client R acts), acts, K. cbn [w_mem w_vars w_past w_now]. split_and!.
    + apply list_lookup_insert, Hlt.
    + intros j st Hne. rewrite list_lookup_insert_ne by congruence. intros Hj. specialize (Hall _ _ Hj). destruct st; [reflexivity|discriminate..].
    + exact Hw.
    + constructor.
    + exact (all_read_part _ _ _ _ _ HA HI).
  - (* RLock *)
    exists h, K. split; [apply (core_past _ _ _ _ _ ltac:(rewrite insert_length; exact (proj1 (proj2 HC))) HC)|]. left.
    destruct HI as [(gos & Ts & HA & HI & Hr)|(j & p & acts2 & K' & Hj & _)]; [|specialize (Hall _ _ Hj); discriminate Hall].
    assert (Hs : forall al, run al (dom K) K (client R acts) <> None) by (intros al; exact (reader_safe _ _ _ _ _ al HC Hw)).
    exists (<[i := mkGo K (dom K) (client R acts)]> gos), (<[i := K]> Ts). cbn [w_mem w_vars w_past w_now] in *. split_and!.
    + apply all_read_put; assumption.
    + rewrite list_fmap_insert. cbn [executes]. apply cinv_put; assumption.
    + intros j st Hj. destruct (decide (j = i)) as [->|Hne].
      * rewrite list_lookup_insert in Hj by exact Hlt. injection Hj as <-. exists acts, (mkGo K (dom K) (client R acts)). split_and!; [exact Hw| |reflexivity].
        apply list_lookup_insert. destruct HI as (_ & L2 & _). rewrite map_length in L2. lia.
      * rewrite list_lookup_insert_ne in Hj by congruence. rewrite list_lookup_insert_ne by congruence. exact (Hr _ _ Hj).
  - (* an access of the writer *)
    destruct HI as [(gos & Ts & HA & HI & Hr)|(j & p0 & acts & K' & Hj & Hout & Hc & HT & HK)]; [destruct (Hr _ _ Hi)|].
    exists h, K. split; [apply (core_past _ _ _ _ _ ltac:(rewrite insert_length; exact (proj1 (proj2 HC))) HC)|]. right.
    cbn [w_mem w_vars w_past w_now] in *.
    assert (i = j) as -> by (destruct (decide (i = j)) as [E|E]; [exact E|specialize (Hout _ _ E Hi); discriminate Hout]).
    rewrite Hi in Hj. injection Hj as <-. destruct (tstep_part _ _ _ _ _ St HK (writer_safe _ _ _ _ _ _ HC HT)) as (K2 & St2 & HK2).
    exists j, p', acts, K2. split_and!; [apply list_lookup_insert, Hlt| |exact Hc|eapply tsteps_snoc; eassumption|exact HK2].
    intros k st Hne Hst. cbn [w_now] in Hst. rewrite list_lookup_insert_ne in Hst by congruence. eauto.
  - (* an access of a reader *)
    destruct HI as [(gos & Ts & HA & HI & Hr)|(j & p0 & acts & K' & Hj & Hout & _)].
    + exists h, K. split; [apply (core_past _ _ _ _ _ ltac:(rewrite insert_length; exact (proj1 (proj2 HC))) HC)|]. left.
      cbn [w_mem w_vars w_past w_now] in *.
      destruct (cinv_step K gos G (map executes now) Ts G' (<[i := p']> (map executes now)) (all_read_separated _ _ HA) HI) as [Ts' HI'].
      { econstructor; [rewrite list_lookup_fmap, Hi; reflexivity|exact St]. }
      exists gos, Ts'. cbn [w_mem w_vars w_past w_now]. split; [exact HA|]. split; [rewrite list_fmap_insert; exact HI'|].
      intros j st Hj. destruct (decide (j = i)) as [->|Hne].
      * rewrite list_lookup_insert in Hj by exact Hlt. injection Hj as <-. exact (Hr _ _ Hi).
      * rewrite list_lookup_insert_ne in Hj by congruence. exact (Hr _ _ Hj).
    + exfalso. cbn [w_now] in *. destruct (decide (i = j)) as [->|E]; [congruence|]. specialize (Hout _ _ E Hi). discriminate Hout.
  - (* Unlock *)
    destruct HI as [(gos & Ts & HA & HI & Hr)|(j & p0 & acts & K' & Hj & Hout & Hc & HT & HK)]; [destruct (Hr _ _ Hi)|].
    cbn [w_mem w_vars w_past w_now] in *.
    assert (i = j) as -> by (destruct (decide (i = j)) as [E|E]; [exact E|specialize (Hout _ _ E Hi); discriminate Hout]).
    rewrite Hi in Hj. injection Hj as <-. pose proof HC as (HP & HL & HT0). cbn [w_vars w_past w_now] in *. exists (h ++ [(j, Write acts, l)]), K'. split.
    + split; [|split]; cbn [w_vars w_past w_now].
      * apply past_snoc; [exact HP|]. eapply section_now; [exact HC|exact Hc|]. eapply writer_run; [exact HT0|exact HT].
      * rewrite insert_length. exact HL.
      * rewrite written_app, reported_app. cbn [written reported]. rewrite !app_nil_r, !app_assoc. destruct (client_app _ _ _ _ _ _ _ _ _ HT0 _ _ HT) as (p' & T' & _ & E).
        rewrite (E _ _ eq_refl) in T'. exact T'.
    + left. apply quiet; cbn [w_mem w_now]; [exact HK|]. intros k st Hk. destruct (decide (k = j)) as [->|E]; [rewrite list_lookup_insert in Hk by exact Hlt; congruence|].
      rewrite list_lookup_insert_ne in Hk by congruence. eauto.
  - (* RUnlock *)
    destruct HI as [(gos & Ts & HA & HI & Hr)|(j & p0 & acts & K' & Hj & Hout & _)].
    + cbn [w_mem w_vars w_past w_now] in *. destruct (Hr _ _ Hi) as (acts & g & Hc & Hg & Eg). pose proof HC as (HP & HL & HT0). cbn [w_vars w_past w_now] in *.
      assert (HX : exists al P P', Recover.rrun (lift_grow grow) (p_empty al) (setup ++ written h) = (obs ++ reported h, Ok P) /\
        held R = p_held P /\ length (objs R) = length (p_objs P) /\ Recover.rrun (lift_grow grow) P acts = (l, Ok P')).
      { pose proof HI as (L1 & L2 & Hti & _). assert (is_Some (Ts !! i)) as [T HTs]. { apply lookup_lt_is_Some. rewrite L1. eapply lookup_lt_Some, Hg. }
        destruct (Hti i g (Stop (Ok (l, R'))) T Hg) as [Ht _]; [rewrite list_lookup_fmap, Hi; reflexivity|exact HTs|].
        destruct (HA _ _ Hg) as (Ek & Es & _). rewrite Ek, Es, Eg in Ht. destruct (tinv_run _ _ _ _ _ _ Ht) as (al & Hrun & _). cbn [run] in Hrun.
        destruct (chooses_read _ _ _ _ Hc) as [view HF]. destruct (reader_run _ _ _ _ _ _ HT0 acts view al HF) as (r & T2 & E & Hx).
        rewrite Hrun in E. injection E as <- <-. eapply Hx. reflexivity. }
      exists (h ++ [(i, Read acts, l)]), K. split.
      * split; [|split]; cbn [w_vars w_past w_now].
        { apply past_snoc; [exact HP|]. eapply section_now; [exact HC|exact Hc|exact HX]. }
        { rewrite insert_length. exact HL. }
        { rewrite written_app, reported_app. cbn [written reported]. rewrite !app_nil_r. exact HT0. }
      * left. exists (<[i := idle K]> gos), (<[i := K]> Ts). cbn [w_mem w_vars w_past w_now]. split_and!.
        { apply all_read_put; [exact HA|discriminate]. }
        { rewrite list_fmap_insert. cbn [executes]. apply cinv_put; [exact HA|exact HI|discriminate]. }
        { intros j st Hj. destruct (decide (j = i)) as [->|Hne]; [rewrite list_lookup_insert in Hj by exact Hlt; injection Hj as <-; exact I|].
          rewrite list_lookup_insert_ne in Hj by congruence. rewrite list_lookup_insert_ne by congruence. specialize (Hr _ _ Hj). destruct st; [exact I|exact Hr|].
          rewrite chooses_other by congruence. exact Hr. }
    + exfalso. cbn [w_now] in *. destruct (decide (i = j)) as [->|E]; [congruence|]. specialize (Hout _ _ E Hi). discriminate Hout.
Qed.
Lemma inv_steps w w' : lsteps more grow gs w w' -> inv w -> inv w'.
Proof. induction 1 as [w|w1 w2 w3 H IH St]; [auto|]. intros HI. exact (inv_step _ _ (IH HI) St). Qed.

(** ** No race, no wild access *)
Lemma inv_race w : inv w -> ~ race (map executes (w_now w)).
Proof.
  intros (h & K & HC & [(gos & Ts & HA & HI & Hr)|(k & p0 & acts & K' & Hk & Hout & _)]) (i & j & p & q & l & w1 & w2 & Hij & Hp & Hq & Np & Nq & Hw).
  - destruct HI as (L1 & L2 & Hi & Hd & _).
    assert (Hget : forall i p, map executes (w_now w) !! i = Some p -> exists g T, gos !! i = Some g /\ Ts !! i = Some T).
    { intros a b Hb. apply lookup_lt_Some in Hb. assert (is_Some (gos !! a)) as [g Hg] by (apply lookup_lt_is_Some; lia).
      assert (is_Some (Ts !! a)) as [T HT] by (apply lookup_lt_is_Some; lia). eauto. }
    destruct (Hget _ _ Hp) as (g1 & T1 & Hg1 & HT1), (Hget _ _ Hq) as (g2 & T2 & Hg2 & HT2).
    destruct (Hi _ _ _ _ Hg1 Hp HT1) as [I1 _], (Hi _ _ _ _ Hg2 Hq HT2) as [I2 _].
    destruct (tinv_next _ _ _ _ _ _ _ _ I1 Np) as [D1 R1], (tinv_next _ _ _ _ _ _ _ _ I2 Nq) as [D2 R2].
    destruct Hw as [->| ->].
    + exact (Hd i j _ _ _ _ Hij Hg1 HT1 HT2 D1 (R1 eq_refl) D2).
    + exact (Hd j i _ _ _ _ (not_eq_sym Hij) Hg2 HT2 HT1 D2 (R2 eq_refl) D1).
  - rewrite list_lookup_fmap in Hp, Hq.
    destruct (w_now w !! i) as [s1|] eqn:E1; [|discriminate]. destruct (w_now w !! j) as [s2|] eqn:E2; [|discriminate]. injection Hp as <-. injection Hq as <-.
    destruct (decide (i = k)) as [->|E]; [|rewrite (Hout _ _ E E1) in Np; discriminate Np].
    destruct (decide (j = k)) as [->|E]; [congruence|]. rewrite (Hout _ _ E E2) in Nq. discriminate Nq.
Qed.
Lemma inside_safe w i st : inv w -> w_now w !! i = Some st -> forall l b, next (executes st) = Some (l, b) -> is_Some (w_mem w !! l).
Proof.
  intros (h & K & HC & [(gos & Ts & HA & HI & Hr)|(k & p0 & acts & K' & Hk & Hout & _ & HT & HK)]) Hi l b Hn.
  - destruct HI as (L1 & L2 & Hti & _). assert (Hp : map executes (w_now w) !! i = Some (executes st)) by (rewrite list_lookup_fmap, Hi; reflexivity).
    pose proof (lookup_lt_Some _ _ _ Hp) as Hlt. assert (is_Some (gos !! i)) as [g Hg] by (apply lookup_lt_is_Some; lia).
    assert (is_Some (Ts !! i)) as [T HTs] by (apply lookup_lt_is_Some; lia). destruct (Hti _ _ _ _ Hg Hp HTs) as [I1 _].
    destruct (tinv_next _ _ _ _ _ _ _ _ I1 Hn) as [D1 _]. destruct I1 as (_ & HT & _). apply elem_of_dom in D1 as [x Hx]. exists x. eapply lookup_weaken; eassumption.
  - destruct (decide (i = k)) as [->|E]; [|rewrite (Hout _ _ E Hi) in Hn; discriminate Hn]. rewrite Hi in Hk. injection Hk as ->.
    destruct (writer_safe _ _ _ _ _ _ HC HT _ _ Hn) as [x Hx]. exists x. eapply lookup_weaken; eassumption.
Qed.
Lemma inv_wild w : inv w -> ~ wild (w_mem w) (map executes (w_now w)).
Proof.
  intros HI (i & p & l & b & Hp & Hn & Hl). rewrite list_lookup_fmap in Hp. destruct (w_now w !! i) as [st|] eqn:E; [|discriminate]. injection Hp as <-.
  destruct (inside_safe _ _ _ HI E _ _ Hn) as [x Hx]. congruence.
Qed.

(** ** One section at a time *)
Definition of_all : rights := mkRights (fun _ => True) (fun _ => True) (fun _ => True) (fun _ => True) (fun _ => True) True.
Lemma inv_history w : inv w -> exists h, past_of h (w_past w) /\
  ((forall j st, w_now w !! j = Some st -> is_writing st = false) ->
     exists al P, Recover.rrun (lift_grow grow) (p_empty al) (setup ++ written h) = (obs ++ reported h, Ok P) /\ as_in (w_mem w) (w_vars w) P).
Proof.
  intros (h & K & HC & HI). pose proof HC as (HP & _ & HT). exists h. split; [exact HP|]. intros Hno.
  destruct (begin_holds _ _ _ _ _ _ HT) as (al & P & EP & HH). exists (allocator_of al), P. split; [exact EP|].
  destruct HI as [(gos & Ts & HA & HI & _)|(i & p & acts & K' & Hi & _)]; [|specialize (Hno _ _ Hi); discriminate Hno].
  destruct (holds_agrees no_regs al ∅ of_all K (w_vars w) P (w_mem w) HH (all_read_part _ _ _ _ _ HA HI)) as (A1 & A2 & A3 & A4). split_and!; auto.
  - intros k x Hk. eapply A2; [|exact Hk]. left; exact I.
  - intros i mt o Ho. eapply A4; [|exact Ho]. left; exact I.
Qed.

(** ** Sections come to an end *)
Fixpoint ends {A} (Q : res A -> Prop) (p : prog A) : Prop :=
  match p with Stop r => Q r | Load _ k => forall w, ends Q (k w) | Store _ _ k => ends Q k | New _ _ k => forall id, ends Q (k id) end.
Lemma ends_catch {A B} (Q : res A -> Prop) (Q' : res B -> Prop) (p : prog A) f : ends Q p -> (forall r, Q r -> ends Q' (f r)) -> ends Q' (catch p f).
Proof. induction p as [r|l k IH|l w k IH|kd n k IH]; cbn; intros H Hf; auto. Qed.
Lemma ends_all {A} (p : prog A) : ends (fun _ => True) p.
Proof. induction p; cbn; auto. Qed.
Lemma client_ends acts : forall R, ends (fun r => r <> Panic) (client R acts).
Proof.
  induction acts as [|a acts IH]; intros R; cbn [c_client]; [discriminate|]. eapply ends_catch; [apply ends_all|].
  intros [[o R']| | |] _; try discriminate; (eapply ends_catch; [apply IH|]); intros [[l R2]| | |] Hr; cbn; congruence.
Qed.
Lemma ends_step {A} Q G (p : prog A) G' p' : tstep G p G' p' -> ends Q p -> ends Q p'.
Proof. intros [l w k H|l w k H|kd n k id H] HE; cbn in HE; auto. Qed.
Lemma ends_steps {A} Q G (p : prog A) G' p' : tsteps G p G' p' -> ends Q p -> ends Q p'.
Proof. induction 1 as [|? ? ? ? ? ? St _ IH]; [auto|]. intros HE. apply IH. eapply ends_step; eassumption. Qed.
Lemma tinv_ends {A} (Q : res A -> Prop) RO T0 (p0 : prog A) G T p r : (forall al r T, run al RO T0 p0 = Some (r, T) -> Q r) -> tinv RO T0 p0 G T p -> p = Stop r -> Q r.
Proof. intros HQ Ht ->. destruct (tinv_run _ _ _ _ _ _ Ht) as (al & E & _). eapply HQ. rewrite E. reflexivity. Qed.
Lemma ends_run {A} (Q : res A -> Prop) al RO (p : prog A) : forall T r T', ends Q p -> run al RO T p = Some (r, T') -> Q r.
Proof.
  induction p as [r0|l k IH|l w k IH|kd n k IH]; intros T r T' HE; cbn [run]; cbn in HE.
  - intros [= <- _]. exact HE.
  - destruct (T !! l); [|discriminate]. apply IH, HE.
  - destruct (T !! l); [|discriminate]. destruct (decide _); [discriminate|]. apply IH, HE.
  - apply IH, HE.
Qed.
Lemma inv_ends w i st r : inv w -> w_now w !! i = Some st -> st <> Outside -> executes st = Stop r -> r <> Panic.
Proof.
  intros (h & K & HC & [(gos & Ts & HA & HI & Hr)|(k & p0 & acts & K' & Hk & Hout & _ & HT & HK)]) Hi Hne Er.
  - destruct st as [|p|p]; [congruence|destruct (Hr _ _ Hi)|]. destruct (Hr _ _ Hi) as (acts & g & _ & Hg & Eg). destruct HI as (L1 & L2 & Hti & _).
    assert (is_Some (Ts !! i)) as [T HTs]. { apply lookup_lt_is_Some. rewrite L1. eapply lookup_lt_Some, Hg. }
    destruct (Hti i g p T Hg) as [Ht _]; [rewrite list_lookup_fmap, Hi; reflexivity|exact HTs|]. rewrite Eg in Ht. cbn [executes] in Er.
    eapply (tinv_ends (fun r => r <> Panic)); [|exact Ht|exact Er]. intros al r2 T2 E. exact (ends_run (fun r => r <> Panic) _ _ _ _ _ _ (client_ends acts (w_vars w)) E).
  - destruct (decide (i = k)) as [->|E]; [|rewrite (Hout _ _ E Hi) in Hne; congruence]. rewrite Hi in Hk. injection Hk as ->. cbn [executes] in Er. subst p0.
    exact (ends_steps _ _ _ _ _ HT (client_ends acts _)).
Qed.

Lemma lsteps_trans w1 w2 w3 : lsteps more grow gs w1 w2 -> lsteps more grow gs w2 w3 -> lsteps more grow gs w1 w3.
Proof. intros H1 H2. induction H2 as [w|wa wb wc H IH St]; [exact H1|]. eapply lsteps_step; [exact (IH H1)|exact St]. Qed.
Lemma lsteps_one w1 w2 : lstep more grow gs w1 w2 -> lsteps more grow gs w1 w2.
Proof. intros H. eapply lsteps_step; [constructor|exact H]. Qed.
Definition inside (b : bool) (p : prog (seen_in * regs)) : status := if b then Writing p else Reading p.
Lemma run_inside b p : forall w i, inv w -> w_now w !! i = Some (inside b p) ->
  exists G r, lsteps more grow gs w (mkWorld G (w_vars w) (w_past w) (<[i := inside b (Stop r)]> (w_now w))).
Proof.
  assert (Hgo : forall w i p0 G' p', inv w -> w_now w !! i = Some (inside b p0) -> tstep (w_mem w) p0 G' p' ->
    (forall w i, inv w -> w_now w !! i = Some (inside b p') -> exists G r, lsteps more grow gs w (mkWorld G (w_vars w) (w_past w) (<[i := inside b (Stop r)]> (w_now w)))) ->
    exists G r, lsteps more grow gs w (mkWorld G (w_vars w) (w_past w) (<[i := inside b (Stop r)]> (w_now w)))).
  { intros w i p0 G' p' HI Hi St IH. set (w1 := mkWorld G' (w_vars w) (w_past w) (<[i := inside b p']> (w_now w))).
    assert (H1 : lstep more grow gs w w1) by (destruct w; cbn in *; destruct b; cbn in *; econstructor; eassumption).
    destruct (IH w1 i (inv_step _ _ HI H1)) as (G2 & r & H2).
    - apply list_lookup_insert. eapply lookup_lt_Some, Hi.
    - exists G2, r. eapply lsteps_trans; [apply lsteps_one, H1|]. cbn [w1 w_vars w_past w_now] in H2. rewrite list_insert_insert in H2. exact H2. }
  induction p as [r|l k IH|l x k IH|kd n k IH]; intros w i HI Hi.
  - exists (w_mem w), r. rewrite list_insert_id by exact Hi. destruct w; constructor.
  - assert (is_Some (w_mem w !! l)) as [v Hv] by (eapply (inside_safe w i _ HI Hi); destruct b; reflexivity).
    eapply Hgo; [exact HI|exact Hi|constructor; exact Hv|apply IH].
  - assert (is_Some (w_mem w !! l)) as Hv by (eapply (inside_safe w i _ HI Hi); destruct b; reflexivity).
    eapply Hgo; [exact HI|exact Hi|constructor; exact Hv|apply IH].
  - eapply (Hgo w i _ _ (k (fresh (ids kd (w_mem w)))) HI Hi); [|apply IH].
    constructor. intros l v Hl Eb. apply (is_fresh (ids kd (w_mem w))). apply elem_ids. eauto.
Qed.
(** Outside, or gone for good. *)
Definition settled (st : status) : Prop := st = Outside \/ executes st = Stop PastLen \/ executes st = Stop OutOfFuel.
Lemma settle_one w i st : inv w -> w_now w !! i = Some st ->
  exists w' st', lsteps more grow gs w w' /\ w_now w' = <[i := st']> (w_now w) /\ settled st'.
Proof.
  intros HI Hi. assert (Hc : st = Outside \/ exists b p, st = inside b p) by (destruct st as [|p|p]; [left; reflexivity|right; exists true, p; reflexivity|right; exists false, p; reflexivity]).
  destruct Hc as [->|(b & p & ->)].
  - exists w, Outside. split; [constructor|]. split; [rewrite list_insert_id by exact Hi; reflexivity|left; reflexivity].
  - destruct (run_inside b p w i HI Hi) as (G & r & H1). set (w1 := mkWorld G (w_vars w) (w_past w) (<[i := inside b (Stop r)]> (w_now w))) in *.
    assert (HI1 : inv w1) by (eapply inv_steps; eassumption).
    assert (Hi1 : w_now w1 !! i = Some (inside b (Stop r))) by (apply list_lookup_insert; eapply lookup_lt_Some, Hi).
    assert (Hr : r <> Panic) by (destruct b; exact (inv_ends _ _ _ r HI1 Hi1 ltac:(discriminate) eq_refl)).
    destruct r as [[l R']| | |]; [|congruence|..].
    + exists (mkWorld G (if b then R' else w_vars w) (alter (fun h => h ++ [l]) i (w_past w)) (<[i := Outside]> (<[i := inside b (Stop (Ok (l, R')))]> (w_now w)))), Outside.
      split; [|split; [cbn; apply list_insert_insert|left; reflexivity]]. eapply lsteps_trans; [exact H1|]. apply lsteps_one. unfold w1 in *. cbn [w_now] in Hi1. destruct b; cbn [inside] in *; econstructor; exact Hi1.
    + exists w1, (inside b (Stop PastLen)). split; [exact H1|]. split; [reflexivity|right; left; destruct b; reflexivity].
    + exists w1, (inside b (Stop OutOfFuel)). split; [exact H1|]. split; [reflexivity|right; right; destruct b; reflexivity].
Qed.
Lemma settle_all w : inv w -> exists w', lsteps more grow gs w w' /\ Forall settled (w_now w').
Proof.
  intros HI. assert (H : forall k, (k <= length (w_now w))%nat -> exists w', lsteps more grow gs w w' /\ length (w_now w') = length (w_now w) /\
    forall j st, (j < k)%nat -> w_now w' !! j = Some st -> settled st).
  { induction k as [|k IH]; intros Hk; [exists w; split; [constructor|]; split; [reflexivity|intros; lia]|].
    destruct (IH ltac:(lia)) as (w1 & H1 & L1 & S1). assert (is_Some (w_now w1 !! k)) as [st Hst] by (apply lookup_lt_is_Some; lia).
    destruct (settle_one w1 k st) as (w2 & st' & H2 & E2 & S2); [eapply inv_steps; eassumption|exact Hst|].
    exists w2. split; [eapply lsteps_trans; eassumption|]. rewrite E2, insert_length. split; [exact L1|]. intros j st2 Hj Hst2.
    destruct (decide (j = k)) as [->|E]; [rewrite list_lookup_insert in Hst2 by lia; congruence|]. rewrite list_lookup_insert_ne in Hst2 by congruence. eapply S1; [|exact Hst2]. lia. }
  destruct (H (length (w_now w)) ltac:(lia)) as (w' & H1 & L & S). exists w'. split; [exact H1|]. apply Forall_lookup. intros j st Hj. eapply S; [|exact Hj]. rewrite <- L. eapply lookup_lt_Some, Hj.
Qed.
End locked.
