(** * C81: messages behind a reader-writer lock *)
From Verif Require Import GoBase Heap HeapFacts SpecPos SpecShare Share SpecRecover Recover RecoverFacts P_Recover.
From Verif Require Import AccessFacts AccessApi AccessMem AccessObj AccessSet AccessRun SpecGo AccessFork AccessRule AccessGo AccessCase Spec P_Go.
From Verif Require Import Access SpecLock LockFacts.

Section lock.
Context (more : nat) (grow : Z -> Z -> Z).
Notation client := (c_client more grow).

(** Goroutines that use common messages only while they hold the lock - and, while they
    hold it only for reading, only read - never race and never access memory that does not
    exist, however their accesses interleave; each section sees, and while nobody is
    writing the messages are, what they are when the sections execute one after the other;
    and whoever is in a section can come to its end. *)
Theorem C81_locked setup obs G R gs : csteps (∅, [client no_regs setup]) (G, [Stop (Ok (obs, R))]) -> keep_rlock gs ->
  forall w, lsteps more grow gs (begins_at gs G R) w ->
  ~ race (map executes (w_now w)) /\ ~ wild (w_mem w) (map executes (w_now w)) /\
  (exists h : history, length (w_past w) = length gs /\ (forall i x, w_past w !! i = Some x -> x = seen_by i h) /\
     (forall h1 i c l h2, h = h1 ++ (i, c, l) :: h2 -> section_runs grow setup obs gs h1 i c l) /\
     ((forall p, ~ In (Writing p) (w_now w)) ->
        exists al P, Recover.rrun (lift_grow grow) (p_empty al) (setup ++ written h) = (obs ++ reported h, Ok P) /\ as_in (w_mem w) (w_vars w) P)) /\
  exists w', lsteps more grow gs w w' /\
    Forall (fun st => st = Outside \/ executes st = Stop PastLen \/ executes st = Stop OutOfFuel) (w_now w').
Proof.
  intros Hs Hk w Hw. assert (HI : inv more grow setup obs gs w) by (eapply inv_steps; [exact Hk|exact Hw|apply inv_start, Hs]). split_and!.
  - eapply inv_race, HI.
  - eapply inv_wild, HI.
  - destruct (inv_history _ _ _ _ _ _ HI) as (h & (H1 & H2 & H3) & H4). exists h. split_and!; auto.
    intros Hno. apply H4. intros j [|p|p] Hj; [reflexivity| |reflexivity]. exfalso. apply (Hno p). apply elem_of_list_In. eapply elem_of_list_lookup_2, Hj.
  - exact (settle_all _ _ _ _ _ Hk _ HI).
Qed.

(** Each section sees what the specified machine shows (SpecLock.v); while nobody is
    writing, the messages, slices and strings are those of the machine. *)
Theorem C81_specified setup obs G R gs : csteps (∅, [client no_regs setup]) (G, [Stop (Ok (obs, R))]) -> keep_rlock gs ->
  forall w, lsteps more grow gs (begins_at gs G R) w ->
  exists h : history, length (w_past w) = length gs /\ (forall i x, w_past w !! i = Some x -> x = seen_by i h) /\
    (forall h1 i c l h2, h = h1 ++ (i, c, l) :: h2 -> section_explained setup obs gs h1 i c l) /\
    ((forall p, ~ In (Writing p) (w_now w)) ->
       exists l0 e, recovers sh_empty (setup ++ written h) l0 e /\
         match e with
         | Goes St _ => l0 = obs ++ reported h /\ held (w_vars w) = sh_held St /\ length (objs (w_vars w)) = length (sh_objs St) /\
             (forall k s, held (w_vars w) !! k = Some s -> bytes_at (w_mem w) s (bytes_in (sh_arr St) s)) /\
             (forall j mt o, objs (w_vars w) !! j = Some (mt, o) -> exists ob, sh_objs St !! j = Some ob /\
                w_mem w !! Buf o = Some (Hdr (o_buf ob)) /\ bytes_at (w_mem w) (o_buf ob) (pbytes (state_of (sh_arr St) ob)))
         | Open => exists l2, obs ++ reported h = l0 ++ l2
         | Panics | Loops => False
         end).
Proof.
  intros Hs Hk w Hw. destruct (C81_locked _ _ _ _ _ Hs Hk _ Hw) as (_ & _ & (h & E2 & E3 & E5 & H3) & _).
  exists h. split_and!; auto.
  - intros h1 i c l h2 E. destruct (E5 _ _ _ _ _ E) as (al & g & Pa & Pb & Eg & Ra & Ec & Rb0). assert (Rb : Recover.rrun (lift_grow grow) (p_empty al) (setup ++ written h1 ++ acts_of c) = (obs ++ reported h1 ++ l, Ok Pb)).
    { rewrite !app_assoc, rrun_app, Ra, Rb0. reflexivity. }
    split.
    + destruct (C76_programs al (lift_grow grow) (setup ++ written h1)) as (l0 & e & Hr & He). exists g, l0, e. split; [exact Eg|]. split; [exact Hr|].
      rewrite Ra in He. destruct e as [St o| | |].
      * destruct He as (P2 & [= -> <-] & A1 & A2 & A3). split; [reflexivity|]. rewrite <- A1, <- (Forall2_length _ _ _ A3). exact Ec.
      * exact He.
      * discriminate He.
      * exact He.
    + destruct (C76_programs al (lift_grow grow) (setup ++ written h1 ++ acts_of c)) as (l0 & e & Hr & He). exists l0, e. split; [exact Hr|].
      rewrite Rb in He. destruct e as [St o| | |].
      * destruct He as (P2 & [= -> <-] & _). reflexivity.
      * exact He.
      * discriminate He.
      * exact He.
  - intros Hno. destruct (H3 Hno) as (al & P & E4 & A1 & A2 & A3 & A4).
    destruct (C76_programs al (lift_grow grow) (setup ++ written h)) as (l0 & e & Hr & He). exists l0, e. split; [exact Hr|]. rewrite E4 in He.
    destruct e as [St o| | |]; [|exact He|discriminate He|exact He].
    destruct He as (P2 & [= -> <-] & B1 & B2 & B3). split_and!; [reflexivity|congruence|rewrite A3; exact (Forall2_length _ _ _ B3)| |].
    + intros k x E. rewrite <- (B2 k x); [exact (A2 _ _ E)|]. rewrite <- B1, <- A1. exact E.
    + intros j mt ob E. destruct (A4 _ _ _ E) as (x & Ex & S1 & S2 & _). destruct (Forall2_lookup_l _ _ _ _ _ B3 Ex) as (o2 & Eo & F1 & F2). cbn [snd] in *.
      exists o2. split; [exact Eo|]. rewrite <- F1, <- F2. auto.
Qed.
End lock.

(** ** A case *)

(** A schedule: a goroutine takes the lock, makes [k] accesses or all there are, gives the
    lock back. *)
Inductive move := Take (i : nat) | Access (i k : nat) | Finish (i : nat) | Give (i : nat).
Section drive.
Context (al : kind -> gset nat -> nat) (more : nat) (grow : Z -> Z -> Z) (gs : list goroutine).
Definition drive1 (w : world) (m : move) : option world :=
  match m with
  | Take i =>
    match w_now w !! i, wants gs w i with
    | Some Outside, Some (Write acts) =>
        if forallb is_outside (w_now w) then Some (mkWorld (w_mem w) (w_vars w) (w_past w) (<[i := Writing (c_client more grow (w_vars w) acts)]> (w_now w))) else None
    | Some Outside, Some (Read acts) =>
        if forallb (fun s => negb (is_writing s)) (w_now w) then Some (mkWorld (w_mem w) (w_vars w) (w_past w) (<[i := Reading (c_client more grow (w_vars w) acts)]> (w_now w))) else None
    | _, _ => None
    end
  | Access i k =>
    match w_now w !! i with
    | Some (Writing p) => match accesses al k (w_mem w) p with Some (G, p) => Some (mkWorld G (w_vars w) (w_past w) (<[i := Writing p]> (w_now w))) | None => None end
    | Some (Reading p) => match accesses al k (w_mem w) p with Some (G, p) => Some (mkWorld G (w_vars w) (w_past w) (<[i := Reading p]> (w_now w))) | None => None end
    | _ => None
    end
  | Finish i =>
    match w_now w !! i with
    | Some (Writing p) => match run al ∅ (w_mem w) p with Some (r, G) => Some (mkWorld G (w_vars w) (w_past w) (<[i := Writing (Stop r)]> (w_now w))) | None => None end
    | Some (Reading p) => match run al ∅ (w_mem w) p with Some (r, G) => Some (mkWorld G (w_vars w) (w_past w) (<[i := Reading (Stop r)]> (w_now w))) | None => None end
    | _ => None
    end
  | Give i =>
    match w_now w !! i with
    | Some (Writing (Stop (Ok (l, R)))) => Some (mkWorld (w_mem w) R (alter (fun h => h ++ [l]) i (w_past w)) (<[i := Outside]> (w_now w)))
    | Some (Reading (Stop (Ok (l, _)))) => Some (mkWorld (w_mem w) (w_vars w) (alter (fun h => h ++ [l]) i (w_past w)) (<[i := Outside]> (w_now w)))
    | _ => None
    end
  end.
Fixpoint drive (w : world) (ms : list move) : option world :=
  match ms with [] => Some w | m :: ms => match drive1 w m with Some w => drive w ms | None => None end end.
Lemma tsteps_writing G R past i p G' p' : tsteps G p G' p' -> forall now, now !! i = Some (Writing p) ->
  lsteps more grow gs (mkWorld G R past now) (mkWorld G' R past (<[i := Writing p']> now)).
Proof.
  induction 1 as [G p|G p G1 p1 G2 p2 St _ IH]; intros now Hi; [rewrite list_insert_id by exact Hi; constructor|].
  eapply lsteps_trans; [apply lsteps_one; eapply l_write; [exact Hi|exact St]|]. pose proof (lookup_lt_Some _ _ _ Hi).
  specialize (IH (<[i := Writing p1]> now)). rewrite list_insert_insert in IH. apply IH, list_lookup_insert. assumption.
Qed.
Lemma tsteps_reading G R past i p G' p' : tsteps G p G' p' -> forall now, now !! i = Some (Reading p) ->
  lsteps more grow gs (mkWorld G R past now) (mkWorld G' R past (<[i := Reading p']> now)).
Proof.
  induction 1 as [G p|G p G1 p1 G2 p2 St _ IH]; intros now Hi; [rewrite list_insert_id by exact Hi; constructor|].
  eapply lsteps_trans; [apply lsteps_one; eapply l_read; [exact Hi|exact St]|]. pose proof (lookup_lt_Some _ _ _ Hi).
  specialize (IH (<[i := Reading p1]> now)). rewrite list_insert_insert in IH. apply IH, list_lookup_insert. assumption.
Qed.
Lemma drive1_ok w m w' : drive1 w m = Some w' -> lsteps more grow gs w w'.
Proof.
  destruct w as [G R past now]. destruct m as [i|i k|i|i]; cbn [drive1 w_mem w_vars w_past w_now].
  - destruct (now !! i) as [[| |]|] eqn:Hi; try discriminate. destruct (wants gs _ i) as [[acts|acts]|] eqn:Hw; try discriminate.
    + destruct (forallb is_outside now) eqn:Hf; [|discriminate]. intros [= <-]. apply lsteps_one, l_lock; auto.
      intros j s Hj. rewrite forallb_forall in Hf. apply Hf, elem_of_list_In. eapply elem_of_list_lookup_2, Hj.
    + destruct (forallb _ now) eqn:Hf; [|discriminate]. intros [= <-]. apply lsteps_one, l_rlock; auto.
      intros j s Hj. rewrite forallb_forall in Hf. apply negb_true_iff, Hf, elem_of_list_In. eapply elem_of_list_lookup_2, Hj.
  - destruct (now !! i) as [[|p|p]|] eqn:Hi; try discriminate; destruct (accesses al k G p) as [[G' p']|] eqn:Ea; try discriminate; intros [= <-].
    + eapply tsteps_writing; [eapply accesses_tsteps, Ea|exact Hi].
    + eapply tsteps_reading; [eapply accesses_tsteps, Ea|exact Hi].
  - destruct (now !! i) as [[|p|p]|] eqn:Hi; try discriminate; destruct (run al ∅ G p) as [[r G']|] eqn:Ea; try discriminate; intros [= <-].
    + eapply tsteps_writing; [eapply run_tsteps, Ea|exact Hi].
    + eapply tsteps_reading; [eapply run_tsteps, Ea|exact Hi].
  - destruct (now !! i) as [[|p|p]|] eqn:Hi; try discriminate; destruct p as [[[l R']| | |]| | |]; try discriminate; intros [= <-]; apply lsteps_one; econstructor; exact Hi.
Qed.
Lemma drive_ok ms : forall w w', drive w ms = Some w' -> lsteps more grow gs w w'.
Proof.
  induction ms as [|m ms IH]; intros w w'; cbn [drive]; [intros [= <-]; constructor|]. destruct (drive1 w m) as [w1|] eqn:E; [|discriminate]. intros H.
  eapply lsteps_trans; [eapply drive1_ok, E|eapply IH, H].
Qed.
End drive.

(** One message.  Goroutine 0 reads its field 1 again and again; goroutine 1 sets it,
    to a value of another size, and then to what it reads plus one, and so on; goroutine 2
    reads once, and decodes what Encode returns into a message of its own. *)
Definition lk_last (past : list (list (option SpecShare.seen))) : Z :=
  match last past with Some [_; Some (SawValue (VNum z))] => z | _ => 299 end.
Definition lk_gs : list goroutine :=
  [(fun _ _ _ => Some (Read [AGet 0 1 PUint64]));
   (fun past _ _ => Some (Write [ASet 0 1 PUint64 (VNum (lk_last past + 1)); AGet 0 1 PUint64]));
   (fun past s n => match past with [] => Some (Read [AGet 0 1 PUint64; AEncode 0; ANew 4 []; ADecode n (length s); AGet n 1 PUint64]) | _ => None end)].
Definition lk_begin : world := begins_at lk_gs (go_st go_one).1 (go_st go_one).2.2.
(** Goroutine 0 reads; then 1 sets the field; then 0 and 2 are both inside, 2 having made
    three accesses and 0 two. *)
Definition lk_moves : list move :=
  [Take 0; Finish 0; Give 0; Take 1; Finish 1; Give 1; Take 1; Finish 1; Give 1; Take 0; Take 2; Access 2 3; Access 0 2].
Definition lk_sum (w : option world) : option (list (list (list (option SpecShare.seen))) * list nat) :=
  match w with
  | Some w => Some (w_past w, map (fun s => match s with Outside => 0 | Writing _ => 1 | Reading (Stop _) => 3 | Reading _ => 2 end%nat) (w_now w))
  | None => None
  end.
Definition lk_past (last : list (list (option SpecShare.seen))) : list (list (list (option SpecShare.seen))) :=
  [[[Some (SawValue (VNum 5))]];
   [[Some SawNothing; Some (SawValue (VNum 300))]; [Some SawNothing; Some (SawValue (VNum 301))]];
   last].
Definition lk_read : list (option SpecShare.seen) :=
  [Some (SawValue (VNum 301)); Some (SawSlice (Some {| sarr := 0; soff := 0; slen := 3; scap := 10 |})); Some SawNothing; Some (SawError false); Some (SawValue (VNum 301))].
Example C81_case :
  csteps (∅, [c_client 10 go_grow no_regs go_one]) ((go_st go_one).1, [Stop (Ok ((go_st go_one).2.1, (go_st go_one).2.2))]) /\ keep_rlock lk_gs /\
  (exists w p q, lsteps 10 go_grow lk_gs lk_begin w /\ w_now w = [Reading p; Outside; Reading q] /\ next p <> None /\ next q <> None /\
    w_past w = lk_past []) /\
  exists w p, lsteps 10 go_grow lk_gs lk_begin w /\ w_now w = [Reading p; Outside; Outside] /\ next p <> None /\ w_past w = lk_past [lk_read].
Proof.
  split; [apply go_st_ok; vm_compute; reflexivity|]. split; [|split].
  - intros g h s n acts [<-|[<-|[<-|[]]]].
    + intros [= <-]. exists (fun _ => True). repeat constructor.
    + discriminate.
    + destruct h; [|discriminate]. intros [= <-]. exists (fun _ => True). repeat (apply Forall_cons; split; [cbn; auto|]). constructor.
  - assert (H : match drive go_al 10 go_grow lk_gs lk_begin lk_moves with
      | Some (mkWorld _ _ past [Reading p; Outside; Reading q]) => next p <> None /\ next q <> None /\ past = lk_past []
      | _ => False end) by (vm_compute; split_and!; [discriminate|discriminate|reflexivity]).
    destruct (drive go_al 10 go_grow lk_gs lk_begin lk_moves) as [w|] eqn:E; [|destruct H].
    destruct w as [G R past now]. destruct now as [|[|p|p] [|[|?|?] [|[|q|q] [|? ?]]]]; try contradiction H.
    exists (mkWorld G R past [Reading p; Outside; Reading q]), p, q. split; [exact (drive_ok _ _ _ _ _ _ _ E)|]. cbn [w_now w_past]. tauto.
  - assert (H : match drive go_al 10 go_grow lk_gs lk_begin (lk_moves ++ [Finish 2; Give 2]) with
      | Some (mkWorld _ _ past [Reading p; Outside; Outside]) => next p <> None /\ past = lk_past [lk_read]
      | _ => False end) by (vm_compute; split_and!; [discriminate|reflexivity]).
    destruct (drive go_al 10 go_grow lk_gs lk_begin (lk_moves ++ [Finish 2; Give 2])) as [w|] eqn:E; [|destruct H].
    destruct w as [G R past now]. destruct now as [|[|p|p] [|[|?|?] [|[|q|q] [|? ?]]]]; try contradiction H.
    exists (mkWorld G R past [Reading p; Outside; Outside]), p. split; [exact (drive_ok _ _ _ _ _ _ _ E)|]. cbn [w_now w_past]. tauto.
Qed.

(** A goroutine that holds the lock only for reading and sets a field, to a value of the
    same size, races with one that reads it. *)
Definition lk_bad : list goroutine :=
  [(fun _ _ _ => Some (Read [ASet 0 1 PUint64 (VNum 7)])); (fun _ _ _ => Some (Read [AGet 0 1 PUint64]))].
Theorem C81_races : ~ keep_rlock lk_bad /\
  exists w, lsteps 10 go_grow lk_bad (begins_at lk_bad (go_st go_one).1 (go_st go_one).2.2) w /\ race (map executes (w_now w)).
Proof.
  split.
  - intros H. destruct (H _ [] [] 1%nat _ (or_introl eq_refl) eq_refl) as [view HF]. apply Forall_cons in HF as [[H1 _] _]. inversion H1.
  - assert (H : match drive go_al 10 go_grow lk_bad (begins_at lk_bad (go_st go_one).1 (go_st go_one).2.2) [Take 0; Take 1; Access 0 5; Access 1 2] with
      | Some (mkWorld _ _ _ [Reading p; Reading q]) => clash p q = true | _ => False end) by (vm_compute; reflexivity).
    destruct (drive go_al 10 go_grow lk_bad _ _) as [w|] eqn:E; [|destruct H]. exists w. split; [exact (drive_ok _ _ _ _ _ _ _ E)|].
    destruct w as [G R past now]. destruct now as [|[|p|p] [|[|q|q] [|? ?]]]; try contradiction H.
    unfold clash in H. destruct (next p) as [[l w1]|] eqn:N1; [|discriminate H]. destruct (next q) as [[l' w2]|] eqn:N2; [|discriminate H].
    apply andb_true_iff in H as [->%bool_decide_eq_true H]. exists 0%nat, 1%nat, p, q, l', w1, w2. split_and!; auto. apply orb_true_iff in H. destruct H; auto.
Qed.

Print Assumptions C81_locked.
Print Assumptions C81_specified.
Print Assumptions C81_case.
Print Assumptions C81_races.
