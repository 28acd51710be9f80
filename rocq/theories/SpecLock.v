(** * Messages behind a lock

    Goroutines that use the same messages, slices and variables only while they hold one
    reader-writer lock (sync.RWMutex): what they do, memory access by memory access, and
    the machine it is compared with, in which one section at a time executes. *)
From Verif Require Import GoBase Heap Spec SpecShare SpecRecover Recover.
From Verif Require Import Access AccessApi AccessMem SpecGo.

(** What a goroutine does between Lock and Unlock, or between RLock and RUnlock (its
    variables then are its own and end with the section). *)
Inductive critical := Write (acts : list act) | Read (acts : list act).

(** A goroutine: its next section, from what its sections so far have seen, the slices and
    strings in the common variables and the number of structs. *)
Notation seen_in := (list (option SpecShare.seen)).
Notation goroutine := (list seen_in -> list (option slice) -> nat -> option critical).
(** Goroutines that, while they hold the lock for reading, only read ([only_reads], SpecGo.v):
    to the common messages and slices they write nothing; they may have messages of their
    own, and Decode common bytes into them. *)
Definition keep_rlock (gs : list goroutine) : Prop :=
  forall g h s n acts, In g gs -> g h s n = Some (Read acts) -> exists view, Forall (only_reads n view) acts.

(** ** With a lock, access by access *)
Inductive status := Outside | Writing (p : prog (seen_in * regs)) | Reading (p : prog (seen_in * regs)).
Definition is_writing (s : status) : bool := match s with Writing _ => true | _ => false end.
Definition is_outside (s : status) : bool := match s with Outside => true | _ => false end.
(** What it executes. *)
Definition executes (s : status) : prog (seen_in * regs) := match s with Outside => Stop Panic | Writing p | Reading p => p end.

(** Memory, the common variables, and of every goroutine what it has seen and where it is. *)
Record world := mkWorld { w_mem : heap; w_vars : regs; w_past : list (list seen_in); w_now : list status }.

Section lock.
Context (more : nat) (grow : Z -> Z -> Z) (gs : list goroutine).
Definition wants (w : world) (i : nat) : option critical :=
  match gs !! i, w_past w !! i with
  | Some g, Some past => g past (held (w_vars w)) (length (objs (w_vars w)))
  | _, _ => None
  end.
Inductive lstep : world -> world -> Prop :=
| l_lock G R past now i acts : now !! i = Some Outside -> (forall j s, now !! j = Some s -> is_outside s = true) ->
    wants (mkWorld G R past now) i = Some (Write acts) ->
    lstep (mkWorld G R past now) (mkWorld G R past (<[i := Writing (c_client more grow R acts)]> now))
| l_rlock G R past now i acts : now !! i = Some Outside -> (forall j s, now !! j = Some s -> is_writing s = false) ->
    wants (mkWorld G R past now) i = Some (Read acts) ->
    lstep (mkWorld G R past now) (mkWorld G R past (<[i := Reading (c_client more grow R acts)]> now))
| l_write G R past now i p G' p' : now !! i = Some (Writing p) -> tstep G p G' p' ->
    lstep (mkWorld G R past now) (mkWorld G' R past (<[i := Writing p']> now))
| l_read G R past now i p G' p' : now !! i = Some (Reading p) -> tstep G p G' p' ->
    lstep (mkWorld G R past now) (mkWorld G' R past (<[i := Reading p']> now))
| l_unlock G R past now i l R' : now !! i = Some (Writing (Stop (Ok (l, R')))) ->
    lstep (mkWorld G R past now) (mkWorld G R' (alter (fun h => h ++ [l]) i past) (<[i := Outside]> now))
| l_runlock G R past now i l R' : now !! i = Some (Reading (Stop (Ok (l, R')))) ->
    lstep (mkWorld G R past now) (mkWorld G R (alter (fun h => h ++ [l]) i past) (<[i := Outside]> now)).
Inductive lsteps : world -> world -> Prop :=
| lsteps_refl w : lsteps w w
| lsteps_step w1 w2 w3 : lsteps w1 w2 -> lstep w2 w3 -> lsteps w1 w3.
Definition begins_at (G : heap) (R : regs) : world := mkWorld G R (map (fun _ => []) gs) (map (fun _ => Outside) gs).

End lock.

(** Memory [G] and the variables [R] are those of [P]. *)
Definition as_in (G : heap) (R : regs) (P : pst) : Prop :=
  held R = p_held P /\ (forall k s, held R !! k = Some s -> bytes_at G s (sbytes (p_mem P) s)) /\
  length (objs R) = length (p_objs P) /\
  (forall i mt o, objs R !! i = Some (mt, o) -> exists h, p_objs P !! i = Some (mt, h) /\ struct_at G (p_mem P) o h).

(** ** The sections so far, in order: who, what, and what it saw *)
Notation history := (list (nat * critical * list (option SpecShare.seen))).
Definition acts_of (c : critical) : list act := match c with Write acts | Read acts => acts end.
(** What the sections that write have done, and what they saw. *)
Fixpoint written (h : history) : list act :=
  match h with [] => [] | (_, Write acts, _) :: h => acts ++ written h | (_, Read _, _) :: h => written h end.
Fixpoint reported (h : history) : list (option SpecShare.seen) :=
  match h with [] => [] | (_, Write _, l) :: h => l ++ reported h | (_, Read _, _) :: h => reported h end.
(** What goroutine [i] has seen, section by section. *)
Fixpoint seen_by (i : nat) (h : history) : list (list (option SpecShare.seen)) :=
  match h with [] => [] | (j, _, l) :: h => if Nat.eqb i j then l :: seen_by i h else seen_by i h end.

(** The section [c] of goroutine [i], which saw [l], is explained by the sections [h]
    before it: what it does is what [i] does next, given what it has seen and what the
    specified machine (SpecShare.v, SpecRecover.v) holds after [setup] and the sections of
    [h] that write; what it sees is what that machine shows next. *)
Definition section_explained (setup : list act) (obs : list (option SpecShare.seen)) (gs : list goroutine) (h : history)
    (i : nat) (c : critical) (l : list (option SpecShare.seen)) : Prop :=
  (exists g l0 e, gs !! i = Some g /\ SpecRecover.recovers sh_empty (setup ++ written h) l0 e /\
     match e with
     | Goes St _ => l0 = obs ++ reported h /\ g (seen_by i h) (sh_held St) (length (sh_objs St)) = Some c
     | Open => exists l2, obs ++ reported h = l0 ++ l2
     | Panics | Loops => False
     end) /\
  (exists l0 e, SpecRecover.recovers sh_empty (setup ++ written h ++ acts_of c) l0 e /\
     match e with
     | Goes _ _ => l0 = obs ++ reported h ++ l
     | Open => exists l2, obs ++ reported h ++ l = l0 ++ l2
     | Panics | Loops => False
     end).

(** The same in terms of Recover.v: there is an allocator with which [setup] and the
    sections of [h] that write lead to a state in which [i] chooses [c], and [c] executed
    in it, one call at a time, sees [l]. *)
Definition section_runs (grow : Z -> Z -> Z) (setup : list act) (obs : list (option SpecShare.seen)) (gs : list goroutine) (h : history)
    (i : nat) (c : critical) (l : list (option SpecShare.seen)) : Prop :=
  exists al g P P', gs !! i = Some g /\ Recover.rrun (lift_grow grow) (p_empty al) (setup ++ written h) = (obs ++ reported h, Ok P) /\
    g (seen_by i h) (p_held P) (length (p_objs P)) = Some c /\ Recover.rrun (lift_grow grow) P (acts_of c) = (l, Ok P').
