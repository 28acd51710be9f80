(** * An execution with parcels is one in which each parcel is a goroutine *)
From Verif Require Import GoBase Heap HeapFacts SpecShare Recover RecoverFacts.
From Verif Require Import Access AccessFacts AccessApi AccessMem AccessObj AccessSet AccessRun SpecGo AccessFork AccessRule AccessGo AccessCase LockFacts SpecFork ForkJoin SpecHand.

(** [p'] makes the accesses of [p], and then is as [K] says. *)
Inductive tracks {A B} (K : res A -> prog B -> Prop) : prog A -> prog B -> Prop :=
| tracks_stop r p' : K r p' -> tracks K (Stop r) p'
| tracks_load l k k' : (forall w, tracks K (k w) (k' w)) -> tracks K (Load l k) (Load l k')
| tracks_store l w k k' : tracks K k k' -> tracks K (Store l w k) (Store l w k')
| tracks_new kd n k k' : (forall id, tracks K (k id) (k' id)) -> tracks K (New kd n k) (New kd n k').
Lemma tracks_same {A} (K : res A -> prog A -> Prop) p : (forall r, K r (Stop r)) -> tracks K p p.
Proof. intros H. induction p; constructor; auto. Qed.
Lemma tracks_catch {A B A' B'} (K : res A -> prog B -> Prop) (K' : res A' -> prog B' -> Prop) p p' f f' :
  tracks K p p' -> (forall r q, K r q -> tracks K' (f r) (catch q f')) -> tracks K' (catch p f) (catch p' f').
Proof. intros H Hf. induction H; cbn [catch]; [auto|constructor; auto..]. Qed.
Lemma tracks_mono {A B} (K K' : res A -> prog B -> Prop) p p' : tracks K p p' -> (forall r q, K r q -> K' r q) -> tracks K' p p'.
Proof. intros H Hk. induction H; constructor; auto. Qed.
Lemma tracks_step {A B} (K : res A -> prog B -> Prop) p p' H H1 p1 : tracks K p p' -> tstep H p H1 p1 -> exists p1', tstep H p' H1 p1' /\ tracks K p1 p1'.
Proof.
  intros Ht St. destruct St as [l w k Hl|l w k Hl|kd n k id Hf]; inversion Ht; subst; eexists; (split; [constructor; eassumption|auto]).
Qed.
Lemma tracks_csteps {A} (K : res A -> prog A -> Prop) c c' : csteps c c' -> forall i p p', c.2 !! i = Some p -> tracks K p p' ->
  exists q q', c'.2 !! i = Some q /\ tracks K q q' /\ csteps (c.1, <[i := p']> c.2) (c'.1, <[i := q']> c'.2).
Proof.
  induction 1 as [c|c1 c2 c3 _ IH St]; intros i p p' Hi Ht; [exists p, p'; split_and!; [exact Hi|exact Ht|constructor]|].
  destruct (IH _ _ _ Hi Ht) as (q & q' & Hq & Htq & Hs). destruct St as [H ps j r H' r' Hr St]. cbn [fst snd] in *.
  pose proof (lookup_lt_Some _ _ _ Hq) as Hlt. destruct (decide (i = j)) as [<-|Hij].
  - rewrite Hq in Hr. injection Hr as <-. destruct (tracks_step _ _ _ _ _ _ Htq St) as (r2 & St2 & Ht2). exists r', r2. split_and!; [apply list_lookup_insert; exact Hlt|exact Ht2|].
    eapply csteps_step; [exact Hs|]. rewrite list_insert_insert. rewrite <- (list_insert_insert ps i r2 q'). eapply cstep_thread; [apply list_lookup_insert; exact Hlt|exact St2].
  - exists q, q'. split_and!; [rewrite list_lookup_insert_ne by congruence; exact Hq|exact Htq|].
    eapply csteps_step; [exact Hs|]. rewrite list_insert_commute by congruence. eapply cstep_thread; [rewrite list_lookup_insert_ne by congruence; exact Hr|exact St].
Qed.

(** The outcome with [l] seen before. *)
Definition before (l : seen_in) (r r' : res (seen_in * regs)) : Prop :=
  match r with Ok (l2, R) => r' = Ok (l ++ l2, R) | _ => r' = r end.
Definition same_sym {A} (Q : res A -> res A -> Prop) (p p' : prog A) : same Q p p' -> same (fun r r' => Q r' r) p' p.
Proof. induction 1; constructor; auto. Qed.
Lemma same_step {A B} (Q : res A -> res B -> Prop) p p' H H1 p1 : same Q p p' -> tstep H p H1 p1 -> exists p1', tstep H p' H1 p1' /\ same Q p1 p1'.
Proof.
  intros Ht St. destruct St as [l w k Hl|l w k Hl|kd n k id Hf]; inversion Ht; subst; eexists; (split; [constructor; eassumption|auto]).
Qed.
Lemma same_next {A B} (Q : res A -> res B -> Prop) p p' : same Q p p' -> next p = next p'.
Proof. destruct 1; reflexivity. Qed.

Section hand.
Context (more : nat) (grow : Z -> Z -> Z).
Notation client := (c_client more grow).
Definition goes_on (acts2 : list act) (r : res (seen_in * regs)) (q : prog (seen_in * regs)) : Prop :=
  forall l R1, r = Ok (l, R1) -> same (before l) (client R1 acts2) q.
Lemma client_tracks acts2 acts : forall R, tracks (goes_on acts2) (client R acts) (client R (acts ++ acts2)).
Proof.
  induction acts as [|a acts IH]; intros R; cbn [c_client app].
  - constructor. intros l R1 [= <- <-]. generalize (client R acts2). intros p. induction p as [[[l R1]| | |]| | |]; constructor; cbn; auto.
  - eapply tracks_catch; [apply (tracks_same (fun r q => q = Stop r)); reflexivity|]. intros r q ->. cbn [catch].
    assert (K : forall R1 o, tracks (goes_on acts2) (let! (l, R) := client R1 acts in ret (o :: l, R)) (let! (l, R) := client R1 (acts ++ acts2) in ret (o :: l, R))).
    { intros R1 o. eapply tracks_catch; [apply IH|]. intros r' q Hq. destruct r' as [[l R2]| | |]; constructor; intros l' R' E; try discriminate E. injection E as <- <-.
      specialize (Hq _ _ eq_refl). clear -Hq. revert Hq. generalize (client R2 acts2). intros p Hq. induction Hq as [r r' Hr| | |]; cbn [catch]; [|constructor; auto..].
      destruct r as [[l2 R]| | |]; cbn in Hr; subst r'; constructor; reflexivity. }
    destruct r as [[o R1]| | |]; [apply K|apply K|constructor; intros ? ? E; discriminate E..].
Qed.

Definition matches (b : parcel) (p : prog (seen_in * regs)) : Prop :=
  match now b with Free R => p = Stop (Ok (known b, R)) | Taken q => same (before (known b)) q p end.
Lemma client_done acts acts2 R H G1 l1 R1 X Y G2 l2 R2 : tsteps H (client R acts) G1 (Stop (Ok (l1, R1))) -> Forall (advances_own (length (held R))) acts ->
  tsteps G1 (client R acts2) G2 (Stop (Ok (l2, R2))) -> Forall (advances_own (length (held R))) acts2 ->
  X = (length (objs R1) - length (objs R))%nat -> Y = (length (held R1) - length (held R))%nat ->
  tsteps H (client R (acts ++ map (renumber (length (objs R)) (length (held R)) X Y) acts2)) G2 (Stop (Ok (l1 ++ l2, join2 R1 (made R R2)))).
Proof.
  intros T1 A1 T2 A2 -> ->.
  destruct (client_join more grow R acts [] [] _ _ _ _ A1 T1) as (T3 & L1 & L2).
  replace (join2 R (mkRegs [] [])) with R in T3 by (destruct R; unfold join2; cbn; rewrite !app_nil_r; reflexivity).
  assert (E : R1 = join2 R (made R R1)).
  { assert (H0 : shifted (objs R) [] (held R) [] R R) by (exists [], []; destruct R; cbn; rewrite !app_nil_r; auto).
    destruct (same_tsteps _ _ _ _ _ T1 _ _ (client_shift more grow (objs R) [] (held R) [] acts R _ A1 H0) eq_refl) as (r' & HQ & _).
    destruct r' as [[l' R1']| | |]; cbn in HQ; try contradiction. destruct HQ as [_ (B & D & E1 & _)]. cbn [fst snd] in *. subst R1.
    unfold made, join2. cbn [objs held]. rewrite !drop_app. reflexivity. }
  destruct (client_join more grow R acts2 (objs (made R R1)) (held (made R R1)) _ _ _ _ A2 T2) as (T4 & _ & _).
  assert (E' : join2 R (mkRegs (objs (made R R1)) (held (made R R1))) = R1) by (symmetry; exact E). rewrite E' in T4.
  rewrite L1, L2 in T4. destruct (client_app more grow _ _ _ _ _ _ _ T1 _ _ T4) as (q & T5 & [_ C]). rewrite (C _ _ eq_refl) in T5. exact T5.
Qed.

(** Two goroutines that have ended, as one that executes first the one, then the other. *)
Lemma merge_two (progs : list (prog (seen_in * regs))) G0 G ps i j p q r r' p2 r2 s : calm (G0, progs) -> csteps (G0, progs) (G, ps) -> i <> j ->
  progs !! i = Some p -> progs !! j = Some q -> ps !! i = Some (Stop r) -> ps !! j = Some (Stop r') ->
  (forall G1 G2, tsteps G0 p G1 (Stop r) -> tsteps G1 q G2 (Stop r') -> tsteps G0 p2 G2 (Stop r2)) ->
  csteps (G0, <[j := Stop s]> (<[i := p2]> progs)) (G, <[j := Stop s]> (<[i := Stop r2]> ps)).
Proof.
  intros Hc Hs Hij Hi Hj Hi' Hj' HT.
  destruct (first_one _ _ (csteps_fsteps _ _ Hs) Hc i p r Hi Hi') as (G1 & T1 & F1). cbn [fst snd] in *.
  assert (Hc1 : calm (G1, <[i := Stop r]> progs)) by (eapply calm_steps; [exact Hc|]; exact (tsteps_csteps _ _ _ _ T1 _ _ Hi)).
  destruct (first_one _ _ F1 Hc1 j q r') as (G2 & T2 & F2); [cbn [snd]; rewrite list_lookup_insert_ne by congruence; exact Hj|exact Hj'|]. cbn [fst snd] in *.
  pose proof (lookup_lt_Some _ _ _ Hi) as Li. pose proof (lookup_lt_Some _ _ _ Hj) as Lj.
  eapply csteps_trans.
  { eapply (tsteps_csteps _ _ _ _ (HT _ _ T1 T2) _ i). rewrite list_lookup_insert_ne by congruence. apply list_lookup_insert, Li. }
  rewrite list_insert_commute, list_insert_insert by congruence. apply fsteps_csteps in F2.
  assert (K : forall x y : res (seen_in * regs), tracks (fun (_ : res (seen_in * regs)) (q : prog (seen_in * regs)) => q = Stop y) (Stop x) (Stop y)) by (intros; apply tracks_stop; reflexivity).
  destruct (tracks_csteps (fun (_ : res (seen_in * regs)) q => q = Stop r2) _ _ F2 i (Stop r) (Stop r2)) as (a & a' & Ea & Ta & F3).
  { cbn [snd]. rewrite list_lookup_insert_ne by congruence. apply list_lookup_insert, Li. }
  { apply K. }
  cbn [fst snd] in *. rewrite Hi' in Ea. injection Ea as <-. inversion Ta; subst. clear Ta.
  destruct (tracks_csteps (fun (_ : res (seen_in * regs)) q => q = Stop s) _ _ F3 j (Stop r') (Stop s)) as (b & b' & Eb & Tb & F4).
  { cbn [snd]. rewrite list_lookup_insert_ne by congruence. apply list_lookup_insert. rewrite ?insert_length. exact Lj. }
  { apply K. }
  cbn [fst snd] in *. rewrite list_lookup_insert_ne in Eb by congruence. rewrite Hj' in Eb. injection Eb as <-. inversion Tb; subst.
  revert F4. rewrite (list_insert_commute (<[i := Stop r]> progs) i j) by congruence. rewrite !list_insert_insert. intros F4. exact F4.
Qed.
End hand.
