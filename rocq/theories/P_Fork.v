(** * C86: fork and join *)
From Verif Require Import GoBase Heap HeapFacts SpecPos SpecShare Share SpecRecover Recover RecoverFacts P_Recover.
From Verif Require Import AccessFacts AccessApi AccessMem AccessObj AccessSet AccessRun SpecGo AccessFork AccessRule AccessGo AccessCase Spec.
From Verif Require Import P_Go SpecLock LockFacts SpecFork ForkJoin.
From Verif Require Import Access.

Section fork.
Context (more : nat) (grow : Z -> Z -> Z).
Notation client := (c_client more grow).

Lemma forked_calm setup obs R G ts : csteps (∅, [client no_regs setup]) (G, [Stop (Ok (obs, R))]) -> disciplined R G ts ->
  calm (G, map (fun t => client R (todo t)) ts).
Proof.
  intros Hs (owner & Ho & Ht) [G' ps] Hst.
  destruct (C77_goroutines more grow setup obs R G owner ts Hs Ho) with (G' := G') (ps := ps) as (A & B & _); [|exact Hst|split; assumption].
  intros i t Hi. destruct (Ht _ _ Hi) as (H1 & H2 & _). auto.
Qed.

(** Goroutines that keep to their rights and have all ended: their interleaving is, in
    memory and in what each of them saw, an execution of one after the other, in any order. *)
Theorem C86_any_order setup obs R G ts G' ps is : csteps (∅, [client no_regs setup]) (G, [Stop (Ok (obs, R))]) -> disciplined R G ts ->
  csteps (G, map (fun t => client R (todo t)) ts) (G', ps) -> Forall finished ps ->
  (forall i, In i is <-> (i < length ts)%nat) ->
  in_order is (G, map (fun t => client R (todo t)) ts) (G', ps).
Proof.
  intros Hs Hd Hst Hf Hi. apply order_any; [eapply forked_calm; eassumption|exact Hst|exact Hf| |].
  - intros i p Hp. right. apply Hi. apply lookup_lt_Some in Hp. rewrite map_length in Hp. exact Hp.
  - apply List.Forall_forall. intros i H. rewrite map_length. apply Hi, H.
Qed.

(** The whole is an execution of one program by one goroutine: the same memory, the same
    variables, the same seen, whatever the interleavings were. *)
Theorem C86_sequential prog obs G R : executed more grow prog obs G R -> csteps (∅, [client no_regs prog]) (G, [Stop (Ok (obs, R))]).
Proof.
  induction 1 as [|prog obs G R acts G1 l R1 _ IH Hst|prog obs G R ts G1 outs _ IH Hd Hst].
  - constructor.
  - destruct (csteps_one _ _ IH _ eq_refl) as (p & [= <-] & T1). destruct (csteps_one _ _ Hst _ eq_refl) as (p & [= <-] & T2). cbn [fst] in *.
    destruct (client_app more grow _ _ _ _ _ _ _ T1 _ _ T2) as (p' & T3 & [_ C]). rewrite (C _ _ eq_refl) in T3. apply tsteps_one, T3.
  - assert (HL : length ts = length outs).
    { apply csteps_fsteps in Hst. clear -Hst. remember (G, map (fun t => client R (todo t)) ts) as c. remember (G1, map (fun x => Stop (Ok x)) outs) as c'.
      assert (E : length c.2 = length c'.2); [|subst; cbn in E; rewrite !map_length in E; exact E]. clear Heqc Heqc'.
      induction Hst as [c|c1 c2 c3 St _ IH]; [reflexivity|]. rewrite <- IH. destruct St. cbn. symmetry. apply insert_length. }
    assert (Ho : in_order (seq 0 (length (map todo ts))) (G, map (fun t => client R (todo t)) ts) (G1, map (fun x => Stop (Ok x)) outs)).
    { eapply C86_any_order; [exact IH|exact Hd|exact Hst| |].
      - apply List.Forall_forall. intros p Hp. apply in_map_iff in Hp as (x & <- & _). exact Logic.I.
      - intros i. rewrite in_seq, map_length. lia. }
    destruct (csteps_one _ _ IH _ eq_refl) as (p & [= <-] & T1). cbn [fst] in *.
    pose proof (order_join more grow R (map todo ts) 0%nat G _ G1 _ (map fst outs) (map snd outs) [] [] Ho) as T2.
    replace (join2 R (mkRegs [] [])) with R in T2 by (destruct R; unfold join2; cbn; rewrite !app_nil_r; reflexivity).
    destruct (client_app more grow _ _ _ _ _ _ _ T1 _ _ (T2
      ltac:(intros i a Hi; rewrite list_lookup_fmap in Hi; cbn [Nat.add]; rewrite list_lookup_fmap; destruct (ts !! i); [injection Hi as <-; reflexivity|discriminate Hi])
      ltac:(intros i a Hi; apply lookup_lt_Some in Hi; rewrite map_length, HL in Hi; apply lookup_lt_is_Some_2 in Hi as [[l R1] Hi]; exists l, R1; cbn [Nat.add]; rewrite !list_lookup_fmap, Hi; auto)
      ltac:(rewrite !map_length; congruence) ltac:(rewrite !map_length; congruence)
      ltac:(destruct Hd as (owner & _ & Ht); apply Forall_lookup_2; intros i a Hi; rewrite list_lookup_fmap in Hi; destruct (ts !! i) eqn:E; [|discriminate Hi]; injection Hi as <-; exact (proj2 (proj2 (Ht _ _ E))))))
      as (p' & T3 & [_ C]). rewrite (C _ _ eq_refl) in T3. apply tsteps_one, T3.
Qed.

(** While goroutines run nothing races, nothing is out of memory, all can come to an end,
    and each leaves and sees what it leaves and sees after [prog] alone. *)
Theorem C86_goroutines prog obs G R ts G' ps : executed more grow prog obs G R -> disciplined R G ts ->
  csteps (G, map (fun t => client R (todo t)) ts) (G', ps) ->
  ~ race ps /\ ~ wild G' ps /\
  (forall i t, ts !! i = Some t -> exists p, ps !! i = Some p /\ forall r, p = Stop r -> as_alone grow prog obs R t G' r) /\
  exists G2 ps2, csteps (G', ps) (G2, ps2) /\ Forall finished ps2.
Proof.
  intros Hx (owner & Ho & Ht) Hst. apply C86_sequential in Hx.
  destruct (C77_goroutines more grow prog obs R G owner ts Hx Ho) with (G' := G') (ps := ps) as (A & B & C & _ & E); [|exact Hst|auto].
  intros i t Hi. destruct (Ht _ _ Hi) as (H1 & H2 & _). auto.
Qed.

(** What has been seen when all have ended again, and what the variables hold then, is
    what the specified machine (SpecShare.v, SpecRecover.v) shows for [prog]. *)
Theorem C86_specified prog obs G R : executed more grow prog obs G R ->
  exists l e, recovers sh_empty prog l e /\
    match e with
    | Goes St _ => l = obs /\ held R = sh_held St /\
        (forall k s, held R !! k = Some s -> bytes_at G s (bytes_in (sh_arr St) s)) /\
        (forall j mt o, objs R !! j = Some (mt, o) -> exists ob, sh_objs St !! j = Some ob /\
           G !! Buf o = Some (Hdr (o_buf ob)) /\ bytes_at G (o_buf ob) (pbytes (state_of (sh_arr St) ob)))
    | Panics => False
    | Loops => False
    | Open => exists l2, obs = l ++ l2
    end.
Proof.
  intros Hx. apply C86_sequential in Hx.
  set (rt := mkRights (fun _ => True) (fun _ => True) (fun _ => True) (fun _ => True) (fun _ => True) True).
  destruct (C77_specified more grow prog obs R G (fun l => match l with Made _ _ => None | _ => Some 0%nat end) [mkTask rt []] Hx) with
    (G' := G) (ps := [Stop (Ok ([] : list (option SpecShare.seen), R))]) (i := 0%nat) (t := mkTask rt []) (r := Ok ([] : list (option SpecShare.seen), R)) as (l & e & Hr & He).
  - reflexivity.
  - intros [|i] t Ht; [|discriminate Ht]. injection Ht as <-. cbn [may todo]. split; [|constructor]. unfold grants, may_read. cbn. split.
    + intros j mt o _ _. split; [intros [] Hl; cbn in Hl; try discriminate Hl; auto|]. split; auto.
    + auto.
  - cbn. constructor.
  - reflexivity.
  - reflexivity.
  - cbn [todo] in Hr. rewrite app_nil_r in Hr. exists l, e. split; [exact Hr|]. destruct e as [St o| | |].
    + destruct He as (l' & R' & [= <- <-] & -> & H1 & H2 & H3). rewrite app_nil_r. split_and!; auto.
      * intros k s E. apply (H2 k); [left; exact Logic.I|exact E].
      * intros j mt ob E. apply (H3 j mt); [left; exact Logic.I|exact E].
    + exact He.
    + discriminate He.
    + destruct (He _ _ eq_refl) as (l2 & E). exists l2. rewrite <- E, app_nil_r. reflexivity.
Qed.
End fork.

(** ** A case *)

(** The two goroutines of C77_case, their accesses interleaved; then a look at what both
    have left behind. *)
Definition two {A} (k1 k0 : nat) (H : heap) (p0 p1 : prog A) : option (heap * list A) :=
  match accesses go_al k1 H p1 with
  | Some (H1, p1') =>
    match accesses go_al k0 H1 p0 with
    | Some (H2, p0') =>
      match run go_al ∅ H2 p1' with
      | Some (Ok x1, H3) => match run go_al ∅ H3 p0' with Some (Ok x0, H4) => Some (H4, [x0; x1]) | _ => None end
      | _ => None
      end
    | None => None
    end
  | None => None
  end.
Lemma two_steps {A} k1 k0 H (p0 p1 : prog A) G outs : two k1 k0 H p0 p1 = Some (G, outs) ->
  csteps (H, [p0; p1]) (G, map (fun x => Stop (Ok x)) outs).
Proof.
  unfold two. destruct (accesses go_al k1 H p1) as [[H1 p1']|] eqn:E1; [|discriminate].
  destruct (accesses go_al k0 H1 p0) as [[H2 p0']|] eqn:E2; [|discriminate].
  destruct (run go_al ∅ H2 p1') as [[[x1| | |] H3]|] eqn:E3; try discriminate. destruct (run go_al ∅ H3 p0') as [[[x0| | |] H4]|] eqn:E4; try discriminate.
  intros E. injection E as <- <-.
  eapply csteps_trans; [exact (tsteps_csteps _ _ _ _ (accesses_tsteps _ _ _ _ _ _ E1) [p0; p1] 1%nat eq_refl)|].
  eapply csteps_trans; [exact (tsteps_csteps _ _ _ _ (accesses_tsteps _ _ _ _ _ _ E2) [p0; p1'] 0%nat eq_refl)|].
  eapply csteps_trans; [exact (tsteps_csteps _ _ _ _ (run_tsteps _ _ _ _ _ E3) [p0'; p1'] 1%nat eq_refl)|].
  exact (tsteps_csteps _ _ _ _ (run_tsteps _ _ _ _ _ E4) [p0'; Stop (Ok x1)] 0%nat eq_refl).
Qed.
Definition fork_ends : option (heap * list (list (option SpecShare.seen) * regs)) :=
  match map (fun t => c_client 10 go_grow go_R (todo t)) go_tasks with [p0; p1] => two 3 20 go_G p0 p1 | _ => None end.
Lemma fork_ends_ok G1 outs : fork_ends = Some (G1, outs) ->
  csteps (go_G, map (fun t => c_client 10 go_grow go_R (todo t)) go_tasks) (G1, map (fun x => Stop (Ok x)) outs).
Proof.
  unfold fork_ends. generalize (map (fun t => c_client 10 go_grow go_R (todo t)) go_tasks). generalize go_G. intros G ps H.
  destruct ps as [|p0 [|p1 [|]]]; try discriminate H. eapply two_steps, H.
Qed.
Definition fork_out : heap * list (list (option SpecShare.seen) * regs) := match fork_ends with Some x => x | None => (∅, []) end.
Lemma fork_out_ok : match fork_ends with Some _ => true | None => false end = true ->
  csteps (go_G, map (fun t => c_client 10 go_grow go_R (todo t)) go_tasks) (fork_out.1, map (fun x => Stop (Ok x)) fork_out.2).
Proof.
  intros H. apply fork_ends_ok. unfold fork_out. revert H. generalize fork_ends. intros [[G1 outs]|] H; [reflexivity|discriminate H].
Qed.
Definition fork_after : list act := [AGet 1 1 PUint64; AGet 2 2 PBytes; ALook 4; AGet 3 1 PUint64; ALook 2].
Definition fork_last : heap * (list (option SpecShare.seen) * regs) :=
  match run go_al ∅ fork_out.1 (c_client 10 go_grow (joined go_R (map snd fork_out.2)) fork_after) with Some (Ok x, G) => (G, x) | _ => (∅, ([], no_regs)) end.
Definition fork_prog : list act :=
  go_setup0 ++ in_turn 3 1 0 0 (map todo go_tasks) (map snd fork_out.2) ++ fork_after.
Lemma run_alone {A} H (p : prog A) r H' : run go_al ∅ H p = Some (r, H') -> csteps (H, [p]) (H', [Stop r]).
Proof. intros E. apply tsteps_one. eapply run_tsteps, E. Qed.
Lemma fork_last_ok : match run go_al ∅ fork_out.1 (c_client 10 go_grow (joined go_R (map snd fork_out.2)) fork_after) with Some (Ok _, _) => true | _ => false end = true ->
  csteps (fork_out.1, [c_client 10 go_grow (joined go_R (map snd fork_out.2)) fork_after]) (fork_last.1, [Stop (Ok (fork_last.2.1, fork_last.2.2))]).
Proof.
  unfold fork_last. generalize fork_out.1 (c_client 10 go_grow (joined go_R (map snd fork_out.2)) fork_after). intros H p.
  destruct (run go_al ∅ H p) as [[[[l R]| | |] G]|] eqn:E; intros Hm; try discriminate Hm. cbn. exact (run_alone _ _ _ _ E).
Qed.
Lemma go_disciplined : disciplined go_R go_G go_tasks.
Proof.
  destruct C77_case as (_ & Ho & Ht). exists go_owner. split; [exact Ho|]. intros i t Hi. destruct (Ht _ _ Hi) as [H1 H2]. split_and!; [exact H1|exact H2|].
  clear -Hi. destruct i as [|[|]]; [..|discriminate Hi]; injection Hi as <-; repeat constructor.
Qed.
Lemma rounds setup ts after G0 obs0 R0 G1 outs G2 obs2 R2 prog obs :
  csteps (∅, [c_client 10 go_grow no_regs setup]) (G0, [Stop (Ok (obs0, R0))]) -> disciplined R0 G0 ts ->
  csteps (G0, map (fun t => c_client 10 go_grow R0 (todo t)) ts) (G1, map (fun x => Stop (Ok x)) outs) ->
  csteps (G1, [c_client 10 go_grow (joined R0 (map snd outs)) after]) (G2, [Stop (Ok (obs2, R2))]) ->
  prog = (setup ++ in_turn (length (objs R0)) (length (held R0)) 0 0 (map todo ts) (map snd outs)) ++ after ->
  obs = (obs0 ++ concat (map fst outs)) ++ obs2 ->
  executed 10 go_grow prog obs G2 R2.
Proof. intros H1 Hd H2 H3 -> ->. eapply ex_alone; [|exact H3]. eapply ex_fork; [|exact Hd|exact H2]. exact (ex_alone _ _ [] [] _ _ _ _ _ _ (ex_start _ _) H1). Qed.
Example C86_case : exists obs G R,
  executed 10 go_grow
    ([AMake [8; 5; 18; 2; 104; 105] 0; ANew 3 []; ADecode 0 0; ANew 3 []; ASet 1 1 PUint64 (VNum 300); ANew 3 [];
      ASet 2 2 PBytes (VBytes (Some [1; 2; 3]))] ++
     (* the first goroutine *)
     [AGet 0 2 PString; ASet 1 1 PUint64 (VNum 7); ANew 3 []; ADecode 3 0; AGet 3 1 PUint64; AGet 1 1 PUint64] ++
     (* the second *)
     [AGet 0 1 PUint64; ASet 2 2 PBytes (VBytes (Some [9; 9; 9; 9; 9; 9; 9; 9; 9; 9])); AEncode 2; ALook 2; ACut 0 2 6; ALook 3; ALook 0] ++
     (* all have ended *)
     [AGet 1 1 PUint64; AGet 2 2 PBytes; ALook 4; AGet 3 1 PUint64; ALook 2]) obs G R /\
  drop 20 obs = [Some (SawValue (VNum 7)); Some (SawSlice (Some (mkSl 3 2 10 30))); Some (SawBytes [9; 9; 9; 9; 9; 9; 9; 9; 9; 9]);
                 Some (SawValue (VNum 5)); Some (SawBytes [18; 10; 9; 9; 9; 9; 9; 9; 9; 9; 9; 9])].
Proof.
  exists ((go_obs ++ concat (map fst fork_out.2)) ++ fork_last.2.1), fork_last.1, fork_last.2.2. split; [|vm_compute; reflexivity].
  refine (rounds go_setup0 go_tasks fork_after go_G go_obs go_R fork_out.1 fork_out.2 fork_last.1 fork_last.2.1 fork_last.2.2 _ _
    (proj1 C77_case) go_disciplined (fork_out_ok _) (fork_last_ok _) _ _).
  - vm_compute. reflexivity.
  - vm_compute. reflexivity.
  - vm_compute. reflexivity.
  - reflexivity.
Qed.

Print Assumptions C86_any_order.
Print Assumptions C86_sequential.
Print Assumptions C86_goroutines.
Print Assumptions C86_specified.
Print Assumptions C86_case.
