(** * C75: programs over shared memory *)
From Verif Require Import VarintFacts RecFacts Heap HeapApi Core HeapFacts HeapSet HeapExec HeapAlloc HeapStable GetFacts ScanFacts FindFacts.
From Verif Require Import Spec SpecScan SpecFind SpecPos SpecMem Core6 ApiFacts OffsetsFacts PosFacts HeapEffect P_Find P_Pos P_Effect StretchFacts P_Beyond Demo.
From Verif Require Import SpecShare Share ShareFacts ShareArg ShareCore ShareRel ShareStep ShareSane ShareDet.

(** Any program - any number of structs, copies of structs, sub-messages, views,
    strings, iterators and buffers of the client's own over the same memory, aliased
    in any way, over any bytes - does what the machine of SpecShare.v does: the
    client sees the same things, and the program ends in the same way.  [Open] are
    the programs SpecShare.v does not speak about. *)
Theorem C75_programs al grow acts :
  exists l r, runs sh_empty acts l r /\
    match r with
    | Goes St _ => exists P, prun grow (p_empty al) acts = (l, Ok P) /\ p_held P = sh_held St /\
        (forall k s, sh_held St !! k = Some s -> sbytes (p_mem P) s = bytes_in (sh_arr St) s) /\
        Forall2 (fun x o => h_buf x.2 = o_buf o /\ sbytes (p_mem P) (h_buf x.2) = pbytes (state_of (sh_arr St) o)) (p_objs P) (sh_objs St)
    | Panics => prun grow (p_empty al) acts = (l, Panic)
    | Loops => prun grow (p_empty al) acts = (l, OutOfFuel)
    | Open => exists l2, fst (prun grow (p_empty al) acts) = l ++ l2
    end.
Proof.
  destruct (programs grow acts _ _ (rel_empty al)) as (l & r & Hr & (l2 & Hl & Hl2) & He). exists l, r. split; [exact Hr|].
  destruct (prun grow (p_empty al) acts) as [l0 r0]. cbn [fst snd] in *. destruct r as [St o| | |]; cbn [ended] in He.
  - rewrite Hl2, app_nil_r in Hl by discriminate. subst l0. destruct He as (P & -> & HA & HG & Hh & HH & HO & _). exists P. split; [reflexivity|]. split; [exact Hh|]. split.
    + intros k s Hk. symmetry. apply fits_bytes; [exact HA|]. exact (Forall_lookup_1 _ _ _ _ HH Hk).
    + eapply Forall2_impl; [exact HO|]. intros x ob (_ & _ & E & _ & Hf & _). split; [symmetry; exact E|]. cbn [state_of pbytes]. rewrite E. symmetry. apply fits_bytes; assumption.
  - rewrite Hl2, app_nil_r in Hl by discriminate. subst. reflexivity.
  - rewrite Hl2, app_nil_r in Hl by discriminate. subst. reflexivity.
  - exists l2. exact Hl.
Qed.

(** The machine leaves nothing open but the allocator's choices: in every state a
    program can reach, an action has at most one outcome. *)
Theorem C75_determined c S a r r' : reach S -> does c S a r -> does c S a r' -> r = r'.
Proof. intros HS. apply does_det, reach_sane, HS. Qed.

(** In every state a program can reach, every slice the client holds and every
    buffer of a struct lies within its array, up to its capacity. *)
Theorem C75_in_bounds S : reach S ->
  (forall k s, sh_held S !! k = Some s -> fits (sh_arr S) s) /\ (forall i o, sh_objs S !! i = Some o -> fits (sh_arr S) (o_buf o)).
Proof.
  intros HS. destruct (reach_sane _ HS) as (_ & HH & HO). split; [intros k s; apply (Forall_lookup_1 _ _ _ _ HH)|]. intros i o Hi. apply (Forall_lookup_1 _ _ _ _ HO Hi).
Qed.

(** A case: a sub-message decoded from the bytes the parent's getter returned
    shares the parent's memory; setting its field in place changes the parent and
    the client's buffer. *)
Definition share_prog : list act :=
  [AMake [8; 5; 18; 2; 8; 7] 2; ANew 3 []; ADecode 0 0; AGet 0 2 PBytes; ANew 2 []; ADecode 1 1; ASet 1 1 PUint64 (VNum 9); ALook 0].
Definition share_sl : slice := mkSl 0 0 6 8.
Definition share_sub : slice := mkSl 0 4 2 4.
Definition share_saw : list SpecShare.seen :=
  [SawSlice (Some share_sl); SawNothing; SawError false; SawSlice (Some share_sub); SawNothing; SawError false; SawNothing; SawBytes [8; 5; 18; 2; 8; 9]].

Ltac modestly := match goal with |- modest ?S => refine (bool_decide_unpack (map_Forall (fun _ l => Z.of_nat (length l) < 2 ^ 60) (sh_arr S)) _); vm_compute; exact I end.

Example C75_case : (exists S, runs sh_empty share_prog share_saw (Goes S SawNothing)) /\
  forall grow, fst (prun grow (p_empty (mkAllocator fresh fresh)) share_prog) = share_saw.
Proof.
  split.
  - eexists. unfold share_prog, share_saw.
    eapply (runs_step (0%nat, 0%nat)); [cbn; repeat constructor; lia|eapply does_make; [repeat constructor; unfold is_byte; lia|reflexivity]|modestly|].
    eapply (runs_step (0%nat, 0%nat)); [cbn; lia|eapply does_new; cbn; lia|modestly|].
    eapply (runs_step (0%nat, 0%nat)).
    { split; eexists; reflexivity. }
    { eapply (does_decode _ _ 0 0 _ _ [(1, 1); (2, 3)]); [reflexivity|reflexivity|].
      eapply walk_cons; [|cbn; lia|eapply walk_cons; [|cbn; lia|apply walk_nil]].
      - exists 8, 1. split; [split; [vm_compute; split; [discriminate|reflexivity]|]; exists 1; split; [vm_compute; apply bey_reads; lia|split; [reflexivity|vm_compute; reflexivity]]|].
        split; [lia|]. split; [reflexivity|]. split; [eapply moves_varint, bey_reads; lia|]. split; [vm_compute; discriminate|]. reflexivity.
      - exists 18, 3. split; [split; [vm_compute; split; [discriminate|reflexivity]|]; exists 1; split; [vm_compute; apply bey_reads; lia|split; [reflexivity|vm_compute; reflexivity]]|].
        split; [lia|]. split; [reflexivity|]. split; [change 3 with (1 + 2) at 2; eapply moves_bytes, bey_reads; lia|]. split; [vm_compute; discriminate|]. reflexivity. }
    { modestly. }
    eapply (runs_step (0%nat, 0%nat)).
    { eexists. split; [reflexivity|]. cbn. lia. }
    { eapply does_get_bytes; [reflexivity|cbn; lia|]. eapply (slice_found _ _ _ 3 share_sl 2 1 4 6); [reflexivity|vm_compute; discriminate|reflexivity| |reflexivity|reflexivity|cbn; lia].
      left. apply bey_reads. lia. }
    { modestly. }
    eapply (runs_step (0%nat, 0%nat)); [cbn; lia|eapply does_new; cbn; lia|modestly|].
    eapply (runs_step (0%nat, 0%nat)).
    { split; eexists; reflexivity. }
    { eapply (does_decode _ _ 1 1 _ _ [(1, 1)]); [reflexivity|reflexivity|]. eapply walk_cons; [|cbn; lia|apply walk_nil].
      exists 8, 1. split; [split; [vm_compute; split; [discriminate|reflexivity]|]; exists 1; split; [vm_compute; apply bey_reads; lia|split; [reflexivity|vm_compute; reflexivity]]|].
      split; [lia|]. split; [reflexivity|]. split; [eapply moves_varint, bey_reads; lia|]. split; [vm_compute; discriminate|]. reflexivity. }
    { modestly. }
    eapply (runs_step (0%nat, 0%nat)).
    { split; [eexists; split; [reflexivity|cbn; lia]|]. split; [cbn; lia|cbn; lia]. }
    { eapply does_set; [reflexivity|cbn; lia|cbn; lia|]. eapply (setting_done _ _ _ _ _ _ _ _ true).
      - eapply (set_same _ _ _ _ 1 [8] [9]); [split; [split; [cbn; lia|apply small_varint; cbn; lia]|apply small_varint; lia]|reflexivity|vm_compute; discriminate|].
        eapply (occupies_varint _ _ _ 7); [reflexivity|left; apply bey_reads; lia].
      - eapply (leaves_same _ _ _ _ _ 1 [8] [] [9]); [|reflexivity|vm_compute; discriminate|].
        + apply pieces_other; [split; [cbn; lia|apply small_varint; cbn; lia]|cbn; lia|apply small_varint; lia].
        + eapply (occupies_varint _ _ _ 7); [reflexivity|left; apply bey_reads; lia].
      - apply back_in_place. }
    { modestly. }
    eapply (runs_step (0%nat, 0%nat)); [eexists; reflexivity|match goal with |- does ?c ?St _ (Goes _ (SawBytes ?b)) => replace b with (bytes_in (sh_arr St) (Some share_sl)) by (vm_compute; reflexivity) end; eapply does_look; reflexivity|modestly|]. apply runs_done.
  - intros grow. vm_compute. reflexivity.
Qed.

Print Assumptions C75_programs.
Print Assumptions C75_determined.
Print Assumptions C75_in_bounds.
