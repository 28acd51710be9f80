(** * C77: goroutines *)
From Verif Require Import GoBase Heap HeapFacts SpecPos SpecShare Share SpecRecover Recover RecoverFacts P_Recover.
From Verif Require Import AccessFacts AccessApi AccessMem AccessObj AccessSet AccessRun SpecGo AccessFork AccessRule AccessGo AccessCase Spec.
From Verif Require Import Access.

(** The outcome [r] of a goroutine and the memory [G'] are those of a program that
    executes [setup] and then the goroutine's program alone, one call at a time, with some
    allocator (Recover.v; C76 says what such a program does). *)
Definition as_alone (grow : Z -> Z -> Z) (setup : list act) (obs : list (option SpecShare.seen)) (R : regs) (t : task) (G' : heap)
    (r : res (list (option SpecShare.seen) * regs)) : Prop :=
  exists al, let x := Recover.rrun (lift_grow grow) (p_empty al) (setup ++ todo t) in
    match r with
    | Ok (l, R') => x.1 = obs ++ l /\ exists P', x.2 = Ok P' /\ agrees (may t) R G' R' P'
    | Panic => False
    | PastLen => x.2 = PastLen
    | OutOfFuel => x.2 = OutOfFuel
    end.

Section go.
Context (more : nat) (grow : Z -> Z -> Z).
Notation client := (c_client more grow).

Lemma go_setup setup obs R G owner ts : csteps (∅, [client no_regs setup]) (G, [Stop (Ok (obs, R))]) ->
  (forall kd id, owner (Made kd id) = None) ->
  (forall i t, ts !! i = Some t -> grants owner i R G (may t) /\ Forall (follows (length (objs R)) (length (held R)) (may t)) (todo t)) ->
  forall G' ps, csteps (G, map (fun t => client R (todo t)) ts) (G', ps) ->
  ~ race ps /\ ~ wild G' ps /\
  (forall i t, ts !! i = Some t -> exists p, ps !! i = Some p /\ forall r, p = Stop r -> as_alone grow setup obs R t G' r) /\
  (forall l w, G !! l = Some w -> owner l = None -> G' !! l = Some w).
Proof.
  intros Hs Ho Ht G' ps Hst. destruct (begins _ _ _ Hs) as [al Hr].
  destruct (fork_ok more grow setup obs R G al Hr owner (map plan_of ts) G' ps Ho) as (A & B & C & D).
  - intros i g Hg. rewrite list_lookup_fmap in Hg. destruct (ts !! i) as [t|] eqn:Et; [|discriminate]. injection Hg as <-. destruct (Ht _ _ Et). apply rule_behaves; assumption.
  - rewrite map_map. exact Hst.
  - split_and!; [exact A|exact B| |exact D]. intros i t Et. destruct (C i (plan_of t)) as (p & Hp & Hal); [rewrite list_lookup_fmap, Et; reflexivity|].
    exists p. split; [exact Hp|]. intros r E. destruct (Hal _ E) as (al' & Hx). exists (allocator_of al'). cbv zeta in *. cbn [plan_of actions] in Hx.
    destruct r as [[l R']| | |]; [|exact Hx..]. destruct Hx as (H1 & P' & T' & RO' & H2 & HT & HH). split; [exact H1|]. exists P'. split; [exact H2|]. eapply holds_agrees; eassumption.
Qed.

(** After any common beginning, goroutines that keep to their rights never race and never
    access memory that does not exist, whatever the interleaving of their accesses; each
    sees what it sees alone and leaves behind what it leaves behind alone; memory that
    belongs to nobody does not change; and they can all come to an end. *)
Theorem C77_goroutines setup obs R G owner ts : csteps (∅, [client no_regs setup]) (G, [Stop (Ok (obs, R))]) ->
  (forall kd id, owner (Made kd id) = None) ->
  (forall i t, ts !! i = Some t -> grants owner i R G (may t) /\ Forall (follows (length (objs R)) (length (held R)) (may t)) (todo t)) ->
  forall G' ps, csteps (G, map (fun t => client R (todo t)) ts) (G', ps) ->
  ~ race ps /\ ~ wild G' ps /\
  (forall i t, ts !! i = Some t -> exists p, ps !! i = Some p /\ forall r, p = Stop r -> as_alone grow setup obs R t G' r) /\
  (forall l w, G !! l = Some w -> owner l = None -> G' !! l = Some w) /\
  exists G2 ps2, csteps (G', ps) (G2, ps2) /\ Forall finished ps2.
Proof.
  intros Hs Ho Ht G' ps Hst. destruct (go_setup _ _ _ _ _ _ Hs Ho Ht _ _ Hst) as (A & B & C & D). split_and!; auto.
  apply (all_finish (fun c => csteps (G, map (fun t => client R (todo t)) ts) c)).
  - intros c c' H1 H2. eapply csteps_step; eassumption.
  - intros [G1 ps1] H1. exact (proj1 (proj2 (go_setup _ _ _ _ _ _ Hs Ho Ht _ _ H1))).
  - exact Hst.
Qed.

(** What such a goroutine sees is what the specified machine (SpecShare.v, SpecRecover.v)
    shows a program that executes [setup] and then the goroutine's program. *)
Theorem C77_specified setup obs R G owner ts : csteps (∅, [client no_regs setup]) (G, [Stop (Ok (obs, R))]) ->
  (forall kd id, owner (Made kd id) = None) ->
  (forall i t, ts !! i = Some t -> grants owner i R G (may t) /\ Forall (follows (length (objs R)) (length (held R)) (may t)) (todo t)) ->
  forall G' ps i t r, csteps (G, map (fun t => client R (todo t)) ts) (G', ps) -> ts !! i = Some t -> ps !! i = Some (Stop r) ->
  exists l e, recovers sh_empty (setup ++ todo t) l e /\
    match e with
    | Goes St _ => exists l' R', r = Ok (l', R') /\ l = obs ++ l' /\ held R' = sh_held St /\
        (forall k s, sees (length (held R)) (may t) k -> held R' !! k = Some s -> bytes_at G' s (bytes_in (sh_arr St) s)) /\
        (forall j mt o, uses (length (objs R)) (may t) j -> objs R' !! j = Some (mt, o) -> exists ob, sh_objs St !! j = Some ob /\
           G' !! Buf o = Some (Hdr (o_buf ob)) /\ bytes_at G' (o_buf ob) (pbytes (state_of (sh_arr St) ob)))
    | Panics => False
    | Loops => r = OutOfFuel
    | Open => forall l' R', r = Ok (l', R') -> exists l2, obs ++ l' = l ++ l2
    end.
Proof.
  intros Hs Ho Ht G' ps i t r Hst Hi Hp. destruct (go_setup _ _ _ _ _ _ Hs Ho Ht _ _ Hst) as (_ & _ & C & _).
  destruct (C _ _ Hi) as (p & Hp' & Hal). rewrite Hp in Hp'. injection Hp' as <-. destruct (Hal _ eq_refl) as (al & Hx). cbv zeta in Hx.
  destruct (C76_programs al (lift_grow grow) (setup ++ todo t)) as (l & e & Hr & He). exists l, e. split; [exact Hr|].
  destruct (Recover.rrun (lift_grow grow) (p_empty al) (setup ++ todo t)) as [x1 x2]. cbn [fst snd] in *. destruct e as [St o| | |].
  - destruct He as (P & [= -> ->] & H1 & H2 & H3). destruct r as [[l' R']| | |]; try discriminate; [|contradiction].
    destruct Hx as (Hl & P' & [= <-] & A1 & A2 & A3 & A4). exists l', R'. split_and!; [reflexivity|exact Hl|congruence| |].
    + intros k s V E. rewrite <- (H2 k s); [exact (A2 _ _ V E)|]. rewrite <- H1, <- A1. exact E.
    + intros j mt ob U E. destruct (A4 _ _ _ U E) as (h & Eh & S1 & S2 & _). destruct (Forall2_lookup_l _ _ _ _ _ H3 Eh) as (o2 & Eo & E1 & E2). cbn [snd] in *.
      exists o2. split; [exact Eo|]. rewrite <- E1, <- E2. auto.
  - exact He.
  - injection He as -> ->. destruct r as [[l' R']| | |]; try discriminate; [|contradiction|reflexivity]. destruct Hx as (_ & P' & [=] & _).
  - intros l' R' ->. destruct Hx as [Hx _]. rewrite <- Hx. exact He.
Qed.

(** ** Goroutines that share nothing: any programs *)
Definition of_its_own : rights := mkRights (fun _ => False) (fun _ => False) (fun _ => True) (fun _ => True) (fun _ => False) True.
Lemma follows_own a : follows 0 0 of_its_own a.
Proof.
  assert (U : forall i, uses 0 of_its_own i) by (intros i; right; lia). assert (V : forall i, sees 0 of_its_own i) by (intros i; right; lia).
  assert (W : forall i, writes 0 of_its_own i) by (intros i; right; split; [lia|exact I]).
  destruct a; cbn; auto 10.
Qed.
Theorem C77_separate (progs : list (list act)) G ps : csteps (∅, map (client no_regs) progs) (G, ps) ->
  ~ race ps /\ ~ wild G ps /\
  (forall i acts, progs !! i = Some acts -> exists p, ps !! i = Some p /\ forall r, p = Stop r -> as_alone grow [] [] no_regs (mkTask of_its_own acts) G r) /\
  exists G2 ps2, csteps (G, ps) (G2, ps2) /\ Forall finished ps2.
Proof.
  intros Hst. destruct (C77_goroutines [] [] no_regs ∅ (fun _ => None) (map (mkTask of_its_own) progs)) with (G' := G) (ps := ps) as (A & B & C & _ & E).
  - constructor.
  - reflexivity.
  - intros i t Ht. rewrite list_lookup_fmap in Ht. destruct (progs !! i) as [acts|]; [|discriminate]. injection Ht as <-. cbn [may todo]. split.
    + split; [intros j mt o []|intros k s a b []].
    + apply Forall_forall. intros a _. apply follows_own.
  - rewrite map_map. exact Hst.
  - split_and!; auto. intros i acts Hi. apply C. rewrite list_lookup_fmap, Hi. reflexivity.
Qed.

(** ** Goroutines that read the same messages and bytes *)

Definition reading (n : nat) (view : nat -> Prop) : rights :=
  mkRights (fun _ => True) (fun _ => True) (fun i => (n <= i)%nat) (fun i => (n <= i)%nat /\ ~ view i) (fun _ => False) False.

Theorem C77_readers setup obs R G (progs : list ((nat -> Prop) * list act)) : csteps (∅, [client no_regs setup]) (G, [Stop (Ok (obs, R))]) ->
  (forall i view acts, progs !! i = Some (view, acts) -> Forall (only_reads (length (objs R)) view) acts) ->
  forall G' ps, csteps (G, map (fun x => client R x.2) progs) (G', ps) ->
  ~ race ps /\ ~ wild G' ps /\
  (forall i view acts, progs !! i = Some (view, acts) -> exists p, ps !! i = Some p /\
     forall r, p = Stop r -> as_alone grow setup obs R (mkTask (reading (length (objs R)) view) acts) G' r) /\
  G ⊆ G' /\
  exists G2 ps2, csteps (G', ps) (G2, ps2) /\ Forall finished ps2.
Proof.
  intros Hs Hr G' ps Hst. destruct (C77_goroutines setup obs R G (fun _ => None) (map (fun x => mkTask (reading (length (objs R)) x.1) x.2) progs) Hs) with (G' := G') (ps := ps) as (A & B & C & D & E).
  - reflexivity.
  - intros i t Ht. rewrite list_lookup_fmap in Ht. destruct (progs !! i) as [[view acts]|] eqn:Ep; [|discriminate]. injection Ht as <-. cbn [may todo fst snd]. split.
    + split; [|intros k s a b _ _ _; split; [left; reflexivity|intros []]]. cbn [put_struct put_buffer reading]. intros j mt o _ Ej. apply lookup_lt_Some in Ej. split_and!.
      * intros l _. split; [left; reflexivity|intros H; lia].
      * intros l _. split; [left; reflexivity|intros H; lia].
      * intros s a b _ _. split; [left; reflexivity|intros [H _]; lia].
    + specialize (Hr _ _ _ Ep). eapply Forall_impl; [exact Hr|]. intros a. unfold reading. clear. destruct a; cbn; unfold uses, sees, writes; cbn; tauto.
  - rewrite map_map. exact Hst.
  - split_and!; auto.
    + intros i view acts Hi. apply C. rewrite list_lookup_fmap, Hi. reflexivity.
    + apply map_subseteq_spec. intros l w Hl. apply D; auto.
Qed.
End go.

(** ** A case *)

(** Common beginning: a message decoded from six bytes (struct 0, slice 0), one built for
    each of two goroutines (structs 1 and 2).  Both goroutines read struct 0 and slice 0;
    each sets fields of its own message to values of another size; the first also decodes
    slice 0 into a struct of its own (3). *)
Definition go_al : kind -> gset nat -> nat := fun _ d => size d.
Definition go_grow (c n : Z) : Z := 2 * n + 8.
Definition go_setup0 : list act :=
  [AMake [8; 5; 18; 2; 104; 105] 0; ANew 3 []; ADecode 0 0;
   ANew 3 []; ASet 1 1 PUint64 (VNum 300); ANew 3 []; ASet 2 2 PBytes (VBytes (Some [1; 2; 3]))].
Definition go_st (acts : list act) : heap * (list (option SpecShare.seen) * regs) :=
  match run go_al ∅ ∅ (c_client 10 go_grow no_regs acts) with Some (Ok x, G) => (G, x) | _ => (∅, ([], no_regs)) end.
Definition go_G : heap := (go_st go_setup0).1.
Definition go_obs : list (option SpecShare.seen) := (go_st go_setup0).2.1.
Definition go_R : regs := (go_st go_setup0).2.2.
Definition go_owner (l : loc) : option nat :=
  match l with
  | Buf 1 | Off 1 _ | Ref 1 | Byte 1 _ => Some 0%nat
  | Buf 2 | Off 2 _ | Ref 2 | Byte 2 _ => Some 1%nat
  | _ => None
  end.
Definition go_tasks : list task :=
  [mkTask (mkRights (fun j => j = 0 \/ j = 1)%nat (fun k => k = 0)%nat (fun j => j = 1 \/ j = 3)%nat (fun j => j = 1)%nat (fun _ => False) False)
     [AGet 0 2 PString; ASet 1 1 PUint64 (VNum 7); ANew 3 []; ADecode 3 0; AGet 3 1 PUint64; AGet 1 1 PUint64];
   mkTask (mkRights (fun j => j = 0 \/ j = 2)%nat (fun k => k = 0)%nat (fun j => j = 2)%nat (fun j => j = 2)%nat (fun _ => False) False)
     [AGet 0 1 PUint64; ASet 2 2 PBytes (VBytes (Some [9; 9; 9; 9; 9; 9; 9; 9; 9; 9])); AEncode 2; ALook 1; ACut 0 2 6; ALook 2; ALook 0]].

Lemma run_setup acts G obs R : (forall r, r = run go_al ∅ ∅ (c_client 10 go_grow no_regs acts) -> r = Some (Ok (obs, R), G)) ->
  csteps (∅, [c_client 10 go_grow no_regs acts]) (G, [Stop (Ok (obs, R))]).
Proof. intros H. eapply (run_begins go_al). apply H. reflexivity. Qed.
Lemma go_st_ok acts : match run go_al ∅ ∅ (c_client 10 go_grow no_regs acts) with Some (Ok _, _) => true | _ => false end = true ->
  csteps (∅, [c_client 10 go_grow no_regs acts]) ((go_st acts).1, [Stop (Ok ((go_st acts).2.1, (go_st acts).2.2))]).
Proof.
  intros H. unfold go_st. destruct (run go_al ∅ ∅ (c_client 10 go_grow no_regs acts)) as [[[[l R]| | |] G]|] eqn:E; try discriminate. exact (run_begins _ _ _ _ E).
Qed.

Example C77_case :
  csteps (∅, [c_client 10 go_grow no_regs go_setup0]) (go_G, [Stop (Ok (go_obs, go_R))]) /\
  (forall kd id, go_owner (Made kd id) = None) /\
  (forall i t, go_tasks !! i = Some t -> grants go_owner i go_R go_G (may t) /\ Forall (follows (length (objs go_R)) (length (held go_R)) (may t)) (todo t)).
Proof.
  split; [apply go_st_ok; vm_compute; reflexivity|]. split; [reflexivity|].
  assert (EO : objs go_R = [(mkMtype 3 [], 0%nat); (mkMtype 3 [], 1%nat); (mkMtype 3 [], 2%nat)]) by (vm_compute; reflexivity).
  assert (EH : held go_R = [Some (mkSl 0 0 6 6)]) by (vm_compute; reflexivity).
  assert (E0 : go_G !! Buf 0 = Some (Hdr (Some (mkSl 0 0 6 6)))) by (vm_compute; reflexivity).
  assert (E1 : go_G !! Buf 1 = Some (Hdr (Some (mkSl 1 0 3 10)))) by (vm_compute; reflexivity).
  assert (E2 : go_G !! Buf 2 = Some (Hdr (Some (mkSl 2 0 5 10)))) by (vm_compute; reflexivity).
  assert (ER : forall o, (o < 3)%nat -> go_G !! Ref o = Some (Ptr None)).
  { intros o Ho. destruct o as [|[|[|]]]; [vm_compute; reflexivity..|lia]. }
  intros i t Ht. destruct i as [|[|]]; [..|discriminate Ht]; injection Ht as <-; cbn [may todo].
  - split; [split|].
    + cbn [use_struct put_struct put_buffer]. rewrite EO. intros j mt o [-> | ->] [= <- <-]; (split_and!; [| |]).
      * intros l Hl. split; [left; destruct l as [| | |x|x y|x]; cbn in Hl; try discriminate Hl; injection Hl as ->; reflexivity|intros [H|H]; discriminate H].
      * intros l. intros E. rewrite (ER 0%nat ltac:(clear; lia)) in E. discriminate E.
      * intros s a b E. rewrite E0 in E. injection E as <-. cbn. intros [-> _]. split; [left; reflexivity|intros H; discriminate H].
      * intros l Hl. assert (go_owner l = Some 0%nat) by (destruct l as [| | |x|x y|x]; cbn in Hl; try discriminate Hl; injection Hl as ->; reflexivity). split; [right|]; auto.
      * intros l. intros E. rewrite (ER 1%nat ltac:(clear; lia)) in E. discriminate E.
      * intros s a b E. rewrite E1 in E. injection E as <-. cbn. intros [-> _]. split; [right; reflexivity|reflexivity].
    + cbn [use_slice put_slice]. rewrite EH. intros k s a b -> [= <-]. cbn. intros [-> _]. split; [left; reflexivity|intros []].
    + rewrite EO, EH. clear. (repeat apply Forall_cons_2); [cbn; unfold uses, sees, writes; cbn; intuition lia..|apply Forall_nil_2].
  - split; [split|].
    + cbn [use_struct put_struct put_buffer]. rewrite EO. intros j mt o [-> | ->] [= <- <-]; (split_and!; [| |]).
      * intros l Hl. split; [left; destruct l as [| | |x|x y|x]; cbn in Hl; try discriminate Hl; injection Hl as ->; reflexivity|intros H; discriminate H].
      * intros l. intros E. rewrite (ER 0%nat ltac:(clear; lia)) in E. discriminate E.
      * intros s a b E. rewrite E0 in E. injection E as <-. cbn. intros [-> _]. split; [left; reflexivity|intros H; discriminate H].
      * intros l Hl. assert (go_owner l = Some 1%nat) by (destruct l as [| | |x|x y|x]; cbn in Hl; try discriminate Hl; injection Hl as ->; reflexivity). split; [right|]; auto.
      * intros l. intros E. rewrite (ER 2%nat ltac:(clear; lia)) in E. discriminate E.
      * intros s a b E. rewrite E2 in E. injection E as <-. cbn. intros [-> _]. split; [right; reflexivity|reflexivity].
    + cbn [use_slice put_slice]. rewrite EH. intros k s a b -> [= <-]. cbn. intros [-> _]. split; [left; reflexivity|intros []].
    + rewrite EO, EH. clear. (repeat apply Forall_cons_2); [cbn; unfold uses, sees, writes; cbn; intuition lia..|apply Forall_nil_2].
Qed.

(** What the rule forbids does race: a setter and a getter on one message, also on
    different fields and also if the size stays; setters on a message and its copy, which
    share the spare capacity of the buffer. *)
Definition go_races (setup acts1 acts2 : list act) : Prop :=
  exists G obs R, csteps (∅, [c_client 10 go_grow no_regs setup]) (G, [Stop (Ok (obs, R))]) /\
    exists G' ps, csteps (G, [c_client 10 go_grow R acts1; c_client 10 go_grow R acts2]) (G', ps) /\ race ps.
Lemma go_races_ok setup acts1 acts2 k1 k2 :
  match run go_al ∅ ∅ (c_client 10 go_grow no_regs setup) with Some (Ok _, _) => true | _ => false end = true ->
  collide go_al k1 k2 (go_st setup).1 (c_client 10 go_grow (go_st setup).2.2 acts1) (c_client 10 go_grow (go_st setup).2.2 acts2) = true ->
  go_races setup acts1 acts2.
Proof. intros H1 H2. eexists _, _, _. split; [apply go_st_ok, H1|]. eapply collide_race, H2. Qed.
Definition go_one : list act := [ANew 4 []; ASet 0 1 PUint64 (VNum 5)].
Theorem C77_races :
  go_races go_one [ASet 0 1 PUint64 (VNum 300)] [AGet 0 1 PUint64] /\
  go_races go_one [ASet 0 1 PUint64 (VNum 7)] [AGet 0 1 PUint64] /\
  go_races go_one [ASet 0 2 PUint64 (VNum 7)] [AGet 0 1 PUint64] /\
  go_races (go_one ++ [ACopy 0]) [ASet 0 2 PUint64 (VNum 7)] [ASet 1 3 PUint64 (VNum 8)].
Proof.
  split_and!.
  - apply (go_races_ok _ _ _ 16 0); vm_compute; reflexivity.
  - apply (go_races_ok _ _ _ 5 2); vm_compute; reflexivity.
  - apply (go_races_ok _ _ _ 3 1); vm_compute; reflexivity.
  - apply (go_races_ok _ _ _ 2 2); vm_compute; reflexivity.
Qed.

Print Assumptions C77_goroutines.
Print Assumptions C77_specified.
Print Assumptions C77_separate.
Print Assumptions C77_readers.
Print Assumptions C77_case.
Print Assumptions C77_races.
