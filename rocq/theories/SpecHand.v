(** * Messages that are handed over

    Messages and slices in parcels.  At any time a parcel is in the hands of at most one
    goroutine, which executes calls on it and then gives it away, over a channel, through a
    pool or by unlocking the mutex that belongs to it; another goroutine takes it then.
    Which goroutine does what with it next may depend on anything; so here it is any
    list of calls the parcel's rights allow. *)
From Verif Require Import GoBase Heap SpecShare.
From Verif Require Import Access AccessApi AccessFork AccessGo SpecGo SpecFork.

Notation seen_in := (list (option SpecShare.seen)).
(** [begun]: the calls of all sections begun so far, in order; [known]: what the ended ones
    have seen; the variables of a parcel nobody has, or what the one who has it executes. *)
Inductive hands := Free (R : regs) | Taken (p : prog (seen_in * regs)).
Record parcel := mkParcel { rule : rights; begun : list act; known : seen_in; now : hands }.
(** What is being executed on it. *)
Definition busy (b : parcel) : prog (seen_in * regs) := match now b with Free _ => Stop Panic | Taken p => p end.

(** The memory [G] can be divided so that each has the rights it needs. *)
Definition divided (R : regs) (G : heap) (rts : list rights) : Prop :=
  exists owner : loc -> option nat, (forall kd id, owner (Made kd id) = None) /\ forall i rt, rts !! i = Some rt -> grants owner i R G rt.
(** A parcel with nothing in it but the common variables. *)
Definition no_rights : rights := mkRights (fun _ => False) (fun _ => False) (fun _ => False) (fun _ => False) (fun _ => False) False.
Definition emptied (R : regs) : parcel := mkParcel no_rights [] [] (Free R).

(** The rights of two parcels together. *)
Definition either (a b : rights) : rights :=
  mkRights (fun j => use_struct a j \/ use_struct b j) (fun k => use_slice a k \/ use_slice b k) (fun j => put_struct a j \/ put_struct b j)
    (fun j => put_buffer a j \/ put_buffer b j) (fun k => put_slice a k \/ put_slice b k) (put_new a \/ put_new b).

Section hand.
(** The memory and the variables in the beginning. *)
Context (more : nat) (grow : Z -> Z -> Z) (R0 : regs) (G0 : heap).
Notation n := (length (objs R0)).
Notation m := (length (held R0)).
(** What was done on one parcel, then what was done on the other, as calls on one: the
    variables made on the other follow those made on the first. *)
Definition both (done done' : list act) (R : regs) : list act :=
  done ++ map (renumber n m (length (objs R) - n) (length (held R) - m)) done'.
Inductive hstep : heap * list parcel -> heap * list parcel -> Prop :=
| h_take G bs i rt done l R acts : bs !! i = Some (mkParcel rt done l (Free R)) -> Forall (follows n m rt) acts ->
    hstep (G, bs) (G, <[i := mkParcel rt (done ++ acts) l (Taken (c_client more grow R acts))]> bs)
| h_access G bs i rt done l p G' p' : bs !! i = Some (mkParcel rt done l (Taken p)) -> tstep G p G' p' ->
    hstep (G, bs) (G', <[i := mkParcel rt done l (Taken p')]> bs)
| h_give G bs i rt done l l' R' : bs !! i = Some (mkParcel rt done l (Taken (Stop (Ok (l', R'))))) ->
    hstep (G, bs) (G, <[i := mkParcel rt done (l ++ l') (Free R')]> bs)
(* two parcels put into one: a goroutine that has both goes on with the variables of both *)
| h_merge G bs i j rt rt' rt2 done done' l l' R R' : i <> j ->
    bs !! i = Some (mkParcel rt done l (Free R)) -> bs !! j = Some (mkParcel rt' done' l' (Free R')) ->
    Forall (advances_own m) done -> Forall (advances_own m) done' ->
    Forall (follows n m rt2) (both done done' R) ->
    divided R0 G0 (map rule (<[j := emptied R0]> (<[i := mkParcel rt2 [] [] (Free R0)]> bs))) ->
    hstep (G, bs) (G, <[j := emptied R0]> (<[i := mkParcel rt2 (both done done' R) (l ++ l') (Free (join2 R (made R0 R')))]> bs)).
Inductive hsteps : heap * list parcel -> heap * list parcel -> Prop :=
| hsteps_refl c : hsteps c c
| hsteps_step c1 c2 c3 : hsteps c1 c2 -> hstep c2 c3 -> hsteps c1 c3.
End hand.
(** All parcels start with the common variables [R]; each has rights of its own. *)
Definition untouched (R : regs) (rts : list rights) : list parcel := map (fun rt => mkParcel rt [] [] (Free R)) rts.
(** Nobody is in the middle of something. *)
Definition at_rest (b : parcel) : Prop := match now b with Free _ => True | Taken p => exists r, p = Stop r end.
