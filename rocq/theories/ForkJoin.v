(** * Race-free goroutines can be executed one after the other *)
From Verif Require Import GoBase Heap HeapFacts SpecShare Recover RecoverFacts.
From Verif Require Import Access AccessFacts AccessApi AccessMem AccessObj AccessSet AccessRun SpecGo AccessFork AccessRule AccessGo P_Go AccessCase SpecLock LockFacts SpecFork.

(** ** Accesses of two goroutines commute *)
Definition conflict {A B} (p : prog A) (q : prog B) : Prop :=
  exists l w1 w2, next p = Some (l, w1) /\ next q = Some (l, w2) /\ (w1 = true \/ w2 = true).
Definition bad {A} (H : heap) (p : prog A) : Prop := exists l w, next p = Some (l, w) /\ H !! l = None.

Lemma new_none kd n id (H : heap) l w : (forall l w, H !! l = Some w -> block l <> (kd, id)) -> H !! l = Some w -> new_cells kd n id !! l = None.
Proof. intros Hf Hl. destruct (new_cells kd n id !! l) eqn:E; [|reflexivity]. apply new_block in E. exfalso. exact (Hf _ _ Hl E). Qed.
Lemma new_has kd n id : new_cells kd n id !! Made kd id = Some (Num 0).
Proof. unfold new_cells, new_list. cbn [list_to_map foldr fst snd]. apply lookup_insert. Qed.

Lemma commute {A} (H H1 H2 : heap) (q q2 p p2 : prog A) : tstep H q H1 q2 -> tstep H1 p H2 p2 -> ~ conflict q p -> ~ bad H p ->
  exists H3, tstep H p H3 p2 /\ tstep H3 q H2 q2.
Proof.
  intros Sq Sp Hc Hb. destruct Sq as [l w k Hl|l w k Hl|kd n k id Hf].
  - exists H2. split; [exact Sp|]. destruct Sp as [l' w' k' Hl'|l' w' k' Hl'|kd' n' k' id' Hf'].
    + constructor. exact Hl.
    + constructor. rewrite lookup_insert_ne; [exact Hl|]. intros ->. apply Hc. exists l, false, true. auto.
    + constructor. apply lookup_union_Some_raw. right. split; [eapply new_none; eassumption|exact Hl].
  - assert (Hn : forall l' b, next p = Some (l', b) -> l' <> l).
    { intros l' b E ->. apply Hc. exists l, true, b. auto. }
    destruct Sp as [l' w' k' Hl'|l' w' k' Hl'|kd' n' k' id' Hf'].
    + specialize (Hn _ _ eq_refl). rewrite lookup_insert_ne in Hl' by congruence. eexists. split; [constructor; exact Hl'|]. constructor. exact Hl.
    + specialize (Hn _ _ eq_refl). rewrite lookup_insert_ne in Hl' by congruence. eexists. split; [constructor; exact Hl'|].
      rewrite insert_commute by congruence. constructor. rewrite lookup_insert_ne by congruence. exact Hl.
    + assert (Hf : forall l0 w0, H !! l0 = Some w0 -> block l0 <> (kd', id')).
      { intros l0 w0 E. destruct (decide (l0 = l)) as [->|Hne]; [apply (Hf' l w); apply lookup_insert|].
        apply (Hf' l0 w0). rewrite lookup_insert_ne by congruence. exact E. }
      eexists. split; [constructor; exact Hf|]. destruct Hl as [w0 Hl]. pose proof (new_none _ n' _ _ _ _ Hf Hl) as Hnone.
      rewrite <- insert_union_r by exact Hnone. constructor. exists w0. apply lookup_union_Some_raw. auto.
  - assert (Hw : forall l' b, next p = Some (l', b) -> exists w0, H !! l' = Some w0 /\ new_cells kd n id !! l' = None).
    { intros l' b E. destruct (H !! l') as [w0|] eqn:El; [|exfalso; apply Hb; exists l', b; auto]. exists w0. split; [reflexivity|]. eapply new_none; eassumption. }
    destruct Sp as [l' w' k' Hl'|l' w' k' Hl'|kd' n' k' id' Hf'].
    + destruct (Hw _ _ eq_refl) as (w0 & E1 & E2). rewrite lookup_union_r in Hl' by exact E2. eexists. split; [constructor; exact Hl'|]. constructor. exact Hf.
    + destruct (Hw _ _ eq_refl) as (w0 & E1 & E2). eexists. split; [constructor; eauto|]. rewrite insert_union_r by exact E2. constructor.
      intros l0 w1 E. destruct (decide (l0 = l')) as [->|Hne]; [exact (Hf _ _ E1)|]. rewrite lookup_insert_ne in E by congruence. exact (Hf _ _ E).
    + assert (Hd : (kd, id) <> (kd', id')).
      { apply (Hf' (Made kd id) (Num 0)). apply lookup_union_Some_raw. left. apply new_has. }
      eexists. split; [constructor|].
      * intros l0 w0 E. apply (Hf' l0 w0). apply lookup_union_Some_raw. right. split; [eapply new_none; eassumption|exact E].
      * assert (Hdis : new_cells kd n id ##ₘ new_cells kd' n' id').
        { apply map_disjoint_spec. intros l0 a b E1 E2. apply new_block in E1, E2. congruence. }
        replace (new_cells kd' n' id' ∪ (new_cells kd n id ∪ H)) with (new_cells kd n id ∪ (new_cells kd' n' id' ∪ H)).
        2:{ rewrite !map_union_assoc. f_equal. apply map_union_comm. exact Hdis. }
        constructor. intros l0 w0 E Eb. apply lookup_union_Some_raw in E as [E|[_ E]]; [apply new_block in E; congruence|exact (Hf _ _ E Eb)].
Qed.

(** ** One after the other *)
Section order.
Context {A : Type}.
Implicit Types (p q : prog A) (c : heap * list (prog A)).
(** No execution from here has a race or an access to memory that does not exist. *)
Definition calm c : Prop := forall c', csteps c c' -> ~ race c'.2 /\ ~ wild c'.1 c'.2.
Lemma calm_steps c c' : calm c -> csteps c c' -> calm c'.
Proof. intros Hc Hs c2 H2. apply Hc. eapply csteps_trans; eassumption. Qed.

Lemma commute_run H q H1 q2 p H2 p2 : tstep H q H1 q2 -> tsteps H1 p H2 p2 -> forall ps i j, i <> j -> ps !! i = Some p -> ps !! j = Some q -> calm (H, ps) ->
  exists H3, tsteps H p H3 p2 /\ tstep H3 q H2 q2.
Proof.
  intros Sq Sp. revert H q q2 Sq. induction Sp as [H1 p|H1 p Hm pm H2 p2 St Sp IH]; intros H q q2 Sq ps i j Hij Hi Hj Hc.
  - exists H. split; [constructor|exact Sq].
  - destruct (Hc (H, ps) (csteps_refl _)) as [Hr Hw]. cbn [fst snd] in *.
    destruct (commute H H1 Hm q q2 p pm Sq St) as (H3 & S1 & S2).
    { intros (l & w1 & w2 & E1 & E2 & E3). apply Hr. exists j, i, q, p, l, w1, w2. split_and!; auto. }
    { intros (l & w & E1 & E2). apply Hw. exists i, p, l, w. auto. }
    destruct (IH H3 q q2 S2 (<[i := pm]> ps) i j Hij) as (H4 & T1 & T2).
    + apply list_lookup_insert. exact (lookup_lt_Some _ _ _ Hi).
    + rewrite list_lookup_insert_ne by congruence. exact Hj.
    + eapply calm_steps; [exact Hc|]. eapply csteps_step; [constructor|]. econstructor; eassumption.
    + exists H4. split; [|exact T2]. eapply tsteps_step; eassumption.
Qed.

(** Executions, the first access first. *)
Inductive fsteps : heap * list (prog A) -> heap * list (prog A) -> Prop :=
| fsteps_refl c : fsteps c c
| fsteps_step c1 c2 c3 : cstep c1 c2 -> fsteps c2 c3 -> fsteps c1 c3.
Lemma fsteps_csteps c c' : fsteps c c' -> csteps c c'.
Proof. induction 1; [constructor|]. eapply csteps_first; eassumption. Qed.
Lemma fsteps_snoc c1 c2 c3 : fsteps c1 c2 -> cstep c2 c3 -> fsteps c1 c3.
Proof. induction 1; intros; [eapply fsteps_step; [eassumption|constructor]|]. eapply fsteps_step; eauto. Qed.
Lemma csteps_fsteps c c' : csteps c c' -> fsteps c c'.
Proof. induction 1; [constructor|]. eapply fsteps_snoc; eassumption. Qed.

(** The accesses of one goroutine that comes to its end can all be made first. *)
Lemma first_one c c' : fsteps c c' -> calm c -> forall i p r, c.2 !! i = Some p -> c'.2 !! i = Some (Stop r) ->
  exists H1, tsteps c.1 p H1 (Stop r) /\ fsteps (H1, <[i := Stop r]> c.2) c'.
Proof.
  induction 1 as [[H ps]|c1 c2 c3 St Fs IH]; intros Hc i p r Hi Hr.
  - cbn [fst snd] in *. rewrite Hi in Hr. injection Hr as ->. exists H. split; [constructor|]. rewrite list_insert_id by exact Hi. constructor.
  - assert (Hc2 : calm c2) by (eapply calm_steps; [exact Hc|]; eapply csteps_step; [constructor|exact St]).
    pose proof St as St0. destruct St as [H ps j q H2 q2 Hj Sq]. cbn [fst snd] in *. destruct (decide (i = j)) as [->|Hij].
    + rewrite Hj in Hi. injection Hi as <-. destruct (IH Hc2 j q2 r) as (H1 & T & F); [apply list_lookup_insert; exact (lookup_lt_Some _ _ _ Hj)|exact Hr|].
      exists H1. split; [eapply tsteps_step; eassumption|]. rewrite list_insert_insert in F. exact F.
    + destruct (IH Hc2 i p r) as (H1 & T & F); [rewrite list_lookup_insert_ne by congruence; exact Hi|exact Hr|].
      destruct (commute_run _ _ _ _ _ _ _ Sq T ps i j Hij Hi Hj Hc) as (H3 & T1 & S2).
      exists H3. split; [exact T1|]. rewrite list_insert_commute in F by congruence.
      eapply fsteps_step; [|exact F]. eapply cstep_thread; [rewrite list_lookup_insert_ne by congruence; exact Hj|exact S2].
Qed.

Lemma all_stopped c c' : csteps c c' -> Forall finished c.2 -> c' = c.
Proof.
  intros Hs. apply csteps_fsteps in Hs. induction Hs as [c|c1 c2 c3 St _ _]; [reflexivity|]. intros Hf. exfalso.
  destruct St as [H ps i p H' p' Hp St]. cbn in Hf. eapply Forall_lookup_1 in Hf; [|exact Hp]. destruct St; exact Hf.
Qed.
Lemma order_any is : forall G ps G' ps', calm (G, ps) -> csteps (G, ps) (G', ps') -> Forall finished ps' ->
  (forall i p, ps !! i = Some p -> finished p \/ In i is) -> Forall (fun i => (i < length ps)%nat) is ->
  in_order is (G, ps) (G', ps').
Proof.
  induction is as [|i is IH]; intros G ps G' ps' Hc Hs Hf Hin Hlt.
  - apply all_stopped in Hs; [|apply Forall_lookup_2; intros i p Hp; cbn [snd] in Hp; destruct (Hin _ _ Hp) as [H|[]]; exact H].
    injection Hs as -> ->. constructor.
  - apply Forall_cons in Hlt as [Hi Hlt]. apply lookup_lt_is_Some_2 in Hi as [p Hp].
    assert (Hl : length ps' = length ps).
    { clear -Hs. apply csteps_fsteps in Hs. remember (G, ps) as c. remember (G', ps') as c'. revert G ps G' ps' Heqc Heqc'.
      induction Hs as [c|c1 c2 c3 St _ IH]; intros; subst; [congruence|]. inversion St; subst. erewrite IH by reflexivity. apply insert_length. }
    assert (Hr : exists r, ps' !! i = Some (Stop r)).
    { pose proof (lookup_lt_Some _ _ _ Hp) as Hlt2. rewrite <- Hl in Hlt2. apply lookup_lt_is_Some_2 in Hlt2 as [p' Hp']. pose proof (Forall_lookup_1 _ _ _ _ Hf Hp') as H.
      destruct p'; [eauto|destruct H..]. }
    destruct Hr as [r Hr]. destruct (first_one _ _ (csteps_fsteps _ _ Hs) Hc i p r Hp Hr) as (G1 & T & F). cbn [fst snd] in *.
    econstructor; [exact Hp|exact T|]. apply IH.
    + eapply calm_steps; [exact Hc|]. exact (tsteps_csteps _ _ _ _ T _ _ Hp).
    + apply fsteps_csteps, F.
    + exact Hf.
    + intros k q Hk. destruct (decide (k = i)) as [->|Hne].
      * rewrite list_lookup_insert in Hk by exact (lookup_lt_Some _ _ _ Hp). injection Hk as <-. left. exact I.
      * rewrite list_lookup_insert_ne in Hk by congruence. destruct (Hin _ _ Hk) as [H|[H|H]]; [auto|congruence|auto].
    + rewrite insert_length. exact Hlt.
Qed.
End order.

(** ** Programs that make the same accesses *)
Inductive same {A B} (Q : res A -> res B -> Prop) : prog A -> prog B -> Prop :=
| same_stop r r' : Q r r' -> same Q (Stop r) (Stop r')
| same_load l k k' : (forall w, same Q (k w) (k' w)) -> same Q (Load l k) (Load l k')
| same_store l w k k' : same Q k k' -> same Q (Store l w k) (Store l w k')
| same_new kd n k k' : (forall id, same Q (k id) (k' id)) -> same Q (New kd n k) (New kd n k').
Lemma same_refl {A} (p : prog A) : same eq p p.
Proof. induction p; constructor; auto. Qed.
Lemma same_catch {A B A' B'} (Q : res A -> res B -> Prop) (Q' : res A' -> res B' -> Prop) p p' f f' :
  same Q p p' -> (forall r r', Q r r' -> same Q' (f r) (f' r')) -> same Q' (catch p f) (catch p' f').
Proof. intros H Hf. induction H; cbn [catch]; [auto|constructor; auto..]. Qed.
(** Outcomes that differ in the value only. *)
Definition alike {A B} (Q : A -> B -> Prop) (r : res A) (r' : res B) : Prop :=
  match r, r' with
  | Ok a, Ok b => Q a b
  | Panic, Panic | PastLen, PastLen | OutOfFuel, OutOfFuel => True
  | _, _ => False
  end.
Lemma same_bind {A B A' B'} (Q : A -> B -> Prop) (Q' : A' -> B' -> Prop) p p' f f' :
  same (alike Q) p p' -> (forall a b, Q a b -> same (alike Q') (f a) (f' b)) -> same (alike Q') (bind p f) (bind p' f').
Proof. intros H Hf. eapply same_catch; [exact H|]. intros [a| | |] [b| | |] HQ; cbn in HQ; try contradiction; [auto|constructor; exact Logic.I..]. Qed.
Lemma same_call {A A' B'} (Q' : A' -> B' -> Prop) (p : prog A) f f' :
  (forall a, same (alike Q') (f a) (f' a)) -> same (alike Q') (bind p f) (bind p f').
Proof. intros Hf. eapply same_catch; [apply same_refl|]. intros [a| | |] r' <-; [auto|constructor; exact Logic.I..]. Qed.
Lemma same_tsteps {A B} (Q : res A -> res B -> Prop) H p H' q : tsteps H p H' q -> forall p' r, same Q p p' -> q = Stop r ->
  exists r', Q r r' /\ tsteps H p' H' (Stop r').
Proof.
  induction 1 as [H p|H p H1 p1 H2 p2 St T IH]; intros p' r Hs E.
  - subst p. inversion Hs; subst. eexists. split; [eassumption|constructor].
  - destruct St as [l w k Hl|l w k Hl|kd n k id Hf]; inversion Hs; subst.
    + destruct (IH (k' w) r) as (r' & HQ & T'); [auto|reflexivity|]. exists r'. split; [exact HQ|]. eapply tsteps_step; [constructor; exact Hl|exact T'].
    + destruct (IH k' r) as (r' & HQ & T'); [auto|reflexivity|]. exists r'. split; [exact HQ|]. eapply tsteps_step; [constructor; exact Hl|exact T'].
    + destruct (IH (k' id) r) as (r' & HQ & T'); [auto|reflexivity|]. exists r'. split; [exact HQ|]. eapply tsteps_step; [constructor; exact Hf|exact T'].
Qed.

(** ** Variables of other goroutines in between *)
Section shift.
Context (more : nat) (grow : Z -> Z -> Z) (A X : list (mtype * nat)) (C Y : list (option slice)).
Notation rn := (renumber (length A) (length C) (length X) (length Y)).
Definition shifted (R R' : regs) : Prop := exists B D, R = mkRegs (A ++ B) (C ++ D) /\ R' = mkRegs (A ++ X ++ B) (C ++ Y ++ D).
Definition saw (x y : SpecShare.seen * regs) : Prop := x.1 = y.1 /\ shifted x.2 y.2.
Lemma shift_lookup {T} (a x b : list T) i : (a ++ x ++ b) !! (if Nat.ltb i (length a) then i else (i + length x)%nat) = (a ++ b) !! i.
Proof.
  destruct (Nat.ltb_spec i (length a)) as [Hi|Hi]; [rewrite !lookup_app_l by exact Hi; reflexivity|].
  rewrite !lookup_app_r by lia. f_equal. lia.
Qed.
Lemma shift_obj R R' i : shifted R R' -> objs R' !! nth_struct (length A) (length X) i = objs R !! i.
Proof. intros (B & D & -> & ->). apply shift_lookup. Qed.
Lemma shift_held R R' k : shifted R R' -> held R' !! nth_slice (length C) (length Y) k = held R !! k.
Proof. intros (B & D & -> & ->). apply shift_lookup. Qed.
Lemma shift_hold R R' s : shifted R R' -> shifted (hold R s) (hold R' s).
Proof. intros (B & D & -> & ->). exists B, (D ++ [s]). unfold hold. cbn. rewrite <- !app_assoc. auto. Qed.
Lemma shift_new R R' x : shifted R R' -> shifted (mkRegs (objs R ++ [x]) (held R)) (mkRegs (objs R' ++ [x]) (held R')).
Proof. intros (B & D & -> & ->). exists (B ++ [x]), D. cbn. rewrite <- !app_assoc. auto. Qed.
Lemma shift_next R R' k rest msg : (length C <= k)%nat -> shifted R R' ->
  shifted (mkRegs (objs R) (<[k := rest]> (held R) ++ [msg])) (mkRegs (objs R') (<[nth_slice (length C) (length Y) k := rest]> (held R') ++ [msg])).
Proof.
  intros Hk (B & D & -> & ->). exists B, (<[(k - length C)%nat := rest]> D ++ [msg]). unfold nth_slice. cbn [objs held].
  destruct (Nat.ltb_spec k (length C)); [lia|]. rewrite !insert_app_r_alt by lia. replace (k + length Y - length C - length Y)%nat with (k - length C)%nat by lia.
  rewrite <- !app_assoc. auto.
Qed.
Lemma act_shift R R' a : advances_own (length C) a -> shifted R R' -> same (alike saw) (c_act more grow R a) (c_act more grow R' (rn a)).
Proof.
  intros Ha HR. assert (E : forall o, saw (o, R) (o, R')) by (split; auto). assert (EH : forall o s, saw (o, hold R s) (o, hold R' s)) by (split; [reflexivity|apply shift_hold, HR]).
  assert (EN : forall o x, saw (o, mkRegs (objs R ++ [x]) (held R)) (o, mkRegs (objs R' ++ [x]) (held R'))) by (split; [reflexivity|apply shift_new, HR]).
  destruct a; cbn [renumber c_act]; rewrite ?(shift_obj _ _ _ HR), ?(shift_held _ _ _ HR).
  all: repeat match goal with
    | |- same _ (bind _ _) (bind _ _) => apply same_call; intros ?
    | |- same _ (let (_, _) := ?x in _) _ => destruct x
    | |- same _ (match ?x with _ => _ end) _ => destruct x
    | |- same _ (ret _) (ret _) => constructor; cbn [alike]; auto
    | |- same _ (Stop Panic) (Stop Panic) => constructor; exact Logic.I
    end.
  split; [reflexivity|]. apply shift_next; [exact Ha|exact HR].
Qed.
Definition all_seen (x y : list (option SpecShare.seen) * regs) : Prop := x.1 = y.1 /\ shifted x.2 y.2.
Lemma client_shift acts : forall R R', Forall (advances_own (length C)) acts -> shifted R R' ->
  same (alike all_seen) (c_client more grow R acts) (c_client more grow R' (map rn acts)).
Proof.
  induction acts as [|a acts IH]; intros R R' Ha HR; cbn [map c_client]; [constructor; split; auto|].
  apply Forall_cons in Ha as [Ha Has]. eapply same_catch; [apply act_shift; eassumption|].
  assert (K : forall R1 R1' o, shifted R1 R1' -> same (alike all_seen) (let! (l, R) := c_client more grow R1 acts in ret (Some o :: l, R))
    (let! (l, R) := c_client more grow R1' (map rn acts) in ret (Some o :: l, R))).
  { intros R1 R1' o H1. eapply same_bind; [apply IH; assumption|]. intros [l1 r1] [l2 r2] [E1 E2]. cbn [fst snd] in *. subst l2. constructor. split; [reflexivity|exact E2]. }
  intros [[o R1]| | |] [[o' R1']| | |] HQ; cbn in HQ; try contradiction.
  - destruct HQ as [E H1]. cbn in E, H1. subst o'. apply K, H1.
  - eapply same_bind; [apply IH; assumption|]. intros [l1 r1] [l2 r2] [E1 E2]. cbn [fst snd] in *. subst l2. constructor. split; [reflexivity|exact E2].
  - constructor. exact Logic.I.
  - constructor. exact Logic.I.
Qed.
End shift.

(** ** The join *)
Section join.
Context (more : nat) (grow : Z -> Z -> Z).
Notation client := (c_client more grow).
Lemma client_join R : forall acts X Y G G1 l R1, Forall (advances_own (length (held R))) acts ->
  tsteps G (client R acts) G1 (Stop (Ok (l, R1))) ->
  tsteps G (client (join2 R (mkRegs X Y)) (map (renumber (length (objs R)) (length (held R)) (length X) (length Y)) acts)) G1
    (Stop (Ok (l, join2 (join2 R (mkRegs X Y)) (made R R1)))) /\
  length (objs (made R R1)) = (length (objs R1) - length (objs R))%nat /\ length (held (made R R1)) = (length (held R1) - length (held R))%nat.
Proof.
  intros acts X Y G G1 l R1 Ha T. split; [|unfold made; cbn; rewrite !drop_length; auto].
  assert (H0 : shifted (objs R) X (held R) Y R (join2 R (mkRegs X Y))).
  { exists [], []. destruct R as [A C]. unfold join2. cbn. rewrite !app_nil_r. auto. }
  destruct (same_tsteps _ _ _ _ _ T _ _ (client_shift more grow (objs R) X (held R) Y acts R _ Ha H0) eq_refl) as (r' & HQ & T').
  destruct r' as [[l' R1']| | |]; cbn in HQ; try contradiction. destruct HQ as [E (B & D & E1 & E2)]. cbn [fst snd] in *. subst l' R1 R1'.
  unfold made, join2 in *. cbn [objs held] in *. rewrite !drop_app. rewrite <- !app_assoc. exact T'.
Qed.
Lemma in_order_other {T} is c (c' : heap * list (prog T)) : in_order is c c' -> forall i, ~ In i is -> c'.2 !! i = c.2 !! i.
Proof.
  induction 1 as [c|i is G ps p G1 r c Hp St H IH]; intros k Hk; [reflexivity|]. cbn [In] in Hk. rewrite IH by tauto. cbn [snd].
  apply list_lookup_insert_ne. tauto.
Qed.
Lemma order_join R progs : forall k G ps G' ps' ls Rs X Y, in_order (seq k (length progs)) (G, ps) (G', ps') ->
  (forall i acts, progs !! i = Some acts -> ps !! (k + i)%nat = Some (client R acts)) ->
  (forall i acts, progs !! i = Some acts -> exists l R1, ls !! i = Some l /\ Rs !! i = Some R1 /\ ps' !! (k + i)%nat = Some (Stop (Ok (l, R1)))) ->
  length ls = length progs -> length Rs = length progs -> Forall (Forall (advances_own (length (held R)))) progs ->
  tsteps G (client (join2 R (mkRegs X Y)) (in_turn (length (objs R)) (length (held R)) (length X) (length Y) progs Rs)) G'
    (Stop (Ok (concat ls, foldl join2 (join2 R (mkRegs X Y)) (map (made R) Rs)))).
Proof.
  induction progs as [|acts progs IH]; intros k G ps G' ps' ls Rs X Y Ho Hps Hps' HL HR Hf.
  - destruct ls, Rs; try discriminate. cbn in *. inversion Ho; subst. constructor.
  - destruct ls as [|l ls], Rs as [|R1 Rs]; try discriminate. cbn [length seq] in *. inversion Ho as [|? ? ? ? p G1 r ? Hp T Ho']; subst.
    pose proof (Hps 0%nat acts eq_refl) as E. rewrite Nat.add_0_r in E. rewrite Hp in E. injection E as ->.
    destruct (Hps' 0%nat acts eq_refl) as (l0 & R0 & [= <-] & [= <-] & E). rewrite Nat.add_0_r in E.
    assert (Er : r = Ok (l, R1)).
    { pose proof (in_order_other _ _ _ Ho' k ltac:(rewrite in_seq; lia)) as E2. cbn [snd] in *. rewrite list_lookup_insert in E2 by exact (lookup_lt_Some _ _ _ Hp). congruence. }
    subst r. apply Forall_cons in Hf as [Ha Hf]. destruct (client_join R acts X Y _ _ _ _ Ha T) as (T1 & L1 & L2).
    pose proof (IH (S k) G1 (<[k := Stop (Ok (l, R1))]> ps) G' ps' ls Rs (X ++ objs (made R R1)) (Y ++ held (made R R1)) Ho') as T2.
    cbn [in_turn map concat foldl]. rewrite <- L1, <- L2, <- !app_length.
    assert (EJ : join2 R (mkRegs (X ++ objs (made R R1)) (Y ++ held (made R R1))) = join2 (join2 R (mkRegs X Y)) (made R R1)).
    { unfold join2. cbn [objs held]. rewrite !app_assoc. reflexivity. }
    rewrite EJ in T2.
    destruct (client_app more grow _ _ _ _ _ _ _ T1 _ _ (T2 ltac:(intros i a Hi; rewrite list_lookup_insert_ne by lia; replace (S k + i)%nat with (k + S i)%nat by lia; exact (Hps (S i) a Hi))
      ltac:(intros i a Hi; replace (S k + i)%nat with (k + S i)%nat by lia; exact (Hps' (S i) a Hi)) ltac:(congruence) ltac:(congruence) Hf)) as (p' & T3 & [_ C]).
    rewrite (C _ _ eq_refl) in T3. exact T3.
Qed.
End join.
