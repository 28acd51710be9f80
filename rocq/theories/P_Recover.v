(** * C76: programs over shared memory that recover from panics *)
From Verif Require Import VarintFacts RecFacts Heap HeapApi Core HeapFacts HeapSet HeapExec HeapAlloc HeapStable GetFacts ScanFacts FindFacts.
From Verif Require Import Spec SpecScan SpecFind SpecPos SpecMem Core6 ApiFacts OffsetsFacts PosFacts HeapEffect P_Find P_Pos P_Effect StretchFacts P_Beyond Demo.
From Verif Require Import SpecShare Share ShareFacts ShareArg ShareCore ShareRel ShareStep ShareSane ShareDet P_Share SpecRecover Recover RecoverFacts RecoverSet RecoverStep.

(** Any program of C75 that recovers from every panic and goes on with the structs,
    slices and iterators it has does what the machine of SpecShare.v does, where a
    panicking action leaves behind what SpecRecover.v says. *)
Theorem C76_programs al grow acts :
  exists l r, recovers sh_empty acts l r /\
    match r with
    | Goes St _ => exists P, rrun grow (p_empty al) acts = (l, Ok P) /\ p_held P = sh_held St /\
        (forall k s, sh_held St !! k = Some s -> sbytes (p_mem P) s = bytes_in (sh_arr St) s) /\
        Forall2 (fun x o => h_buf x.2 = o_buf o /\ sbytes (p_mem P) (h_buf x.2) = pbytes (state_of (sh_arr St) o)) (p_objs P) (sh_objs St)
    | Panics => False
    | Loops => rrun grow (p_empty al) acts = (l, OutOfFuel)
    | Open => exists l2, fst (rrun grow (p_empty al) acts) = l ++ l2
    end.
Proof.
  destruct (rprograms grow acts _ _ (rel_empty al)) as (l & r & Hr & (l2 & Hl & Hl2) & He). exists l, r. split; [exact Hr|].
  destruct (rrun grow (p_empty al) acts) as [l0 r0]. cbn [fst snd] in *. destruct r as [St o| | |]; cbn [ended] in He.
  - rewrite Hl2, app_nil_r in Hl by discriminate. subst l0. destruct He as (P & -> & HA & HG & Hh & HH & HO & _). exists P. split; [reflexivity|]. split; [exact Hh|]. split.
    + intros k s Hk. symmetry. apply fits_bytes; [exact HA|]. exact (Forall_lookup_1 _ _ _ _ HH Hk).
    + eapply Forall2_impl; [exact HO|]. intros x ob (_ & _ & E & _ & Hf & _). split; [symmetry; exact E|]. cbn [state_of pbytes]. rewrite E. symmetry. apply fits_bytes; assumption.
  - clear -Hr. remember Panics as r eqn:E. revert E. induction Hr; intros E; try discriminate; auto.
  - rewrite Hl2, app_nil_r in Hl by discriminate. subst. reflexivity.
  - exists l2. exact Hl.
Qed.

(** An action has at most one outcome, and a panic leaves at most one state behind. *)
Theorem C76_determined c S a r r' : reach_r S -> does c S a r -> does c S a r' -> r = r'.
Proof. intros HS. apply does_det, reach_r_sane, HS. Qed.
Theorem C76_behind_determined S a r r' : reach_r S -> leaves_behind S a r -> leaves_behind S a r' -> r = r'.
Proof. intros HS. apply behind_det, reach_r_sane, HS. Qed.

(** Recovering never leaves a slice or a struct outside its array. *)
Theorem C76_in_bounds S : reach_r S ->
  (forall k s, sh_held S !! k = Some s -> fits (sh_arr S) s) /\ (forall i o, sh_objs S !! i = Some o -> fits (sh_arr S) (o_buf o)).
Proof.
  intros HS. destruct (reach_r_sane _ HS) as (_ & HH & HO). split; [intros k s; apply (Forall_lookup_1 _ _ _ _ HH)|]. intros i o Hi. apply (Forall_lookup_1 _ _ _ _ HO Hi).
Qed.

(** The calls that write agree with those of C75 wherever they return. *)
Theorem C76_agrees grow P a : (rexec grow P a).1 = (let* (o, _) := pexec grow P a in Ok o) /\
  forall o P', pexec grow P a = Ok (o, P') -> (rexec grow P a).2 = P'.
Proof. apply rexec_pexec. Qed.

(** A case: Decode panics in the middle of the message; the fields found so far are
    there.  A setter panics after it has moved a part of the message. *)
Definition rec_bytes : list Z := [18; 11; 0; 0; 19; 0; 0; 0; 0; 0; 0; 0; 0; 10; 236; 255; 255; 255; 255; 255; 255; 255; 255; 1].
Definition rec_wreck : list Z := [18; 11; 0; 0; 19; 0; 0; 0; 0; 0; 0; 0; 0; 19; 0; 0; 0; 0; 0; 0; 0; 0; 10; 236].
Definition rec_prog : list act := [AMake rec_bytes 0; ANew 3 []; ADecode 0 0; AEncode 0; ASet 0 1 PBytes (VBytes (Some [7])); ALook 0].
Definition rec_sl : slice := mkSl 0 0 24 24.
Definition rec_saw : list (option SpecShare.seen) :=
  [Some (SawSlice (Some rec_sl)); Some SawNothing; None; Some (SawSlice (Some rec_sl)); None; Some (SawBytes rec_wreck)].
Definition rec_bytely : Forall is_byte rec_bytes.
Proof. unfold rec_bytes, is_byte. repeat constructor; lia. Qed.
Lemma rec_reads n v k : uvarint (skipn n rec_bytes) = (v, k) -> k <> 0 -> reads_varint (skipn n rec_bytes) v k.
Proof. intros E Hk. apply reads_uvarint; [apply Forall_drop, rec_bytely|]. auto. Qed.

Definition rec_obj : obj := become (mkObj 3 [] None (fun _ => None) true) (Some rec_sl) (fun f => recorded [] f [(2, 1); (1, 14); (2, 5)] None).

Lemma rec_walk : walk 3 rec_bytes 0 [(2, 1); (1, 14)] 4.
Proof.
  eapply walk_cons; [|cbn; lia|eapply walk_cons; [|cbn; lia|apply walk_nil]].
  - exists 18, 12. split; [split; [vm_compute; split; [discriminate|reflexivity]|]; exists 1; split; [apply (rec_reads 0); [vm_compute; reflexivity|lia]|split; [reflexivity|vm_compute; reflexivity]]|].
    split; [lia|]. split; [reflexivity|]. split; [change 12 with (1 + 11); eapply moves_bytes, (rec_reads 1); [vm_compute; reflexivity|lia]|]. split; [vm_compute; discriminate|]. reflexivity.
  - exists 10, (10 + (2 ^ 64 - 20)). split; [split; [vm_compute; split; [discriminate|reflexivity]|]; exists 1; split; [apply (rec_reads 13); [vm_compute; reflexivity|lia]|split; [reflexivity|vm_compute; reflexivity]]|].
    split; [lia|]. split; [reflexivity|]. split; [eapply moves_bytes, (rec_reads 14); [vm_compute; reflexivity|lia]|]. split; [vm_compute; discriminate|]. vm_compute. reflexivity.
Qed.
Lemma rec_fails : fails_with 3 rec_bytes 4 [(2, 5)].
Proof.
  apply (fails_wire_type _ _ _ 19 5); try (vm_compute; discriminate); try (vm_compute; reflexivity); try lia.
  split; [vm_compute; split; [discriminate|reflexivity]|]. exists 1. split; [apply (rec_reads 4); [vm_compute; reflexivity|lia]|split; [reflexivity|vm_compute; reflexivity]].
Qed.

Example C76_case : (exists S, recovers sh_empty rec_prog rec_saw (Goes S SawNothing)) /\
  forall grow, fst (rrun grow (p_empty (mkAllocator fresh fresh)) rec_prog) = rec_saw.
Proof.
  split.
  - eexists. unfold rec_prog, rec_saw.
    eapply (recovers_step (0%nat, 0%nat)); [exact rec_bytely|eapply does_make; [exact rec_bytely|reflexivity]|modestly|].
    eapply (recovers_step (0%nat, 0%nat)); [cbn; lia|eapply does_new; cbn; lia|modestly|].
    eapply (recovers_panic (0%nat, 0%nat)).
    { split; eexists; reflexivity. }
    { eapply does_decode_panics; [reflexivity|reflexivity|]. eapply decodes_fails; [exact rec_walk|eapply fails_with_fails, rec_fails]. }
    { eapply behind_decode; [reflexivity|reflexivity|exact rec_walk|exact rec_fails]. }
    eapply (recovers_step (0%nat, 0%nat)); [eexists; reflexivity|match goal with |- does ?c ?S1 _ _ => exact (does_encode c S1 0 rec_obj eq_refl) end|modestly|].
    assert (Hpc : pieces 1 (wire_of PBytes (VBytes (Some [7]))) [10] [1] [7]) by (apply pieces_bytes; [split; [cbn; lia|apply small_varint; cbn; lia]|reflexivity|apply small_varint; cbn; lia]).
    match goal with |- recovers ?S _ _ _ => set (St := S) end.
    assert (Hocc : occupies PBytes (pbytes (state_of (sh_arr St) rec_obj)) 14 (-10)).
    { change (-10) with (signed64 (10 + (2 ^ 64 - 20))). eapply occupies_bytes; [reflexivity|]. left. change (reads_varint (skipn 14 rec_bytes) (2 ^ 64 - 20) 10). apply (rec_reads 14); [vm_compute; reflexivity|lia]. }
    assert (Hset : sets PBytes 1 (VBytes (Some [7])) (state_of (sh_arr St) rec_obj) OBeyond).
    { eapply (set_stretches _ _ _ _ 14 (-10) [10] [1; 7] 13 4); [|vm_compute; reflexivity|vm_compute; discriminate|exact Hocc|cbn; lia|reflexivity|reflexivity|lia].
      apply (pieces_encodes 1 [7] [10] [1]); [repeat constructor; unfold is_byte; lia|exact Hpc]. }
    eapply (recovers_panic (0%nat, 0%nat)).
    { split; [eexists; split; [reflexivity|cbn; lia]|]. split; [repeat constructor; unfold is_byte; lia|cbn; lia]. }
    { eapply does_set_panics; [reflexivity|cbn; lia|repeat constructor; unfold is_byte; lia|]. eapply setting_no_room; [exact Hset|].
      eapply (stretch_no_room _ _ _ _ _ 14 (-10)); [exact Hpc|vm_compute; reflexivity|vm_compute; discriminate|exact Hocc|reflexivity|reflexivity|cbn; lia|vm_compute; reflexivity]. }
    { eapply behind_set; [reflexivity|]. eapply (wrecks_bytes _ _ _ _ _ 14 (-10) [10] [1] [7] 13 4); [exact Hset|exact Hpc|vm_compute; reflexivity|vm_compute; discriminate|exact Hocc|reflexivity|reflexivity|lia|vm_compute; reflexivity]. }
    eapply (recovers_step (0%nat, 0%nat)); [eexists; reflexivity|match goal with |- does ?c ?St _ (Goes _ (SawBytes ?b)) => replace b with (bytes_in (sh_arr St) (Some rec_sl)) by (vm_compute; reflexivity) end; eapply does_look; reflexivity|modestly|].
    apply recovers_done.
  - intros grow. vm_compute. reflexivity.
Qed.

Print Assumptions C76_programs.
Print Assumptions C76_determined.
Print Assumptions C76_behind_determined.
Print Assumptions C76_in_bounds.
Print Assumptions C76_agrees.
