(** * Concrete interleavings *)
From Verif Require Import GoBase Heap SpecPos SpecShare Share Spec Recover AccessFacts AccessApi SpecGo AccessFork AccessGo.
From Verif Require Import Access.

(** [k] accesses of one goroutine. *)
Fixpoint accesses {A} (al : kind -> gset nat -> nat) (k : nat) (H : heap) (p : prog A) : option (heap * prog A) :=
  match k with
  | O => Some (H, p)
  | S k =>
    match p with
    | Stop _ => None
    | Load l f => match H !! l with Some w => accesses al k H (f w) | None => None end
    | Store l w f => match H !! l with Some _ => accesses al k (<[l := w]> H) f | None => None end
    | New kd n f => let id := pick (al kd) (ids kd H) in accesses al k (new_cells kd n id ∪ H) (f id)
    end
  end.
Lemma accesses_tsteps {A} al k : forall H (p : prog A) H' p', accesses al k H p = Some (H', p') -> tsteps H p H' p'.
Proof.
  induction k as [|k IH]; intros H p H' p'; cbn [accesses]; [intros [= -> ->]; constructor|]. destruct p as [r|l f|l w f|kd n f].
  - discriminate.
  - destruct (H !! l) as [w|] eqn:E; [|discriminate]. intros HR. eapply tsteps_step; [constructor; exact E|]. eapply IH, HR.
  - destruct (H !! l) eqn:E; [|discriminate]. intros HR. eapply tsteps_step; [constructor; eauto|]. eapply IH, HR.
  - intros HR. eapply tsteps_step; [constructor|eapply IH, HR]. intros l w Hl Eb. apply (pick_fresh (al kd) (ids kd H)). apply elem_ids. eauto.
Qed.
Lemma tsteps_csteps {A} H (p : prog A) H' p' : tsteps H p H' p' -> forall ps i, ps !! i = Some p -> csteps (H, ps) (H', <[i := p']> ps).
Proof.
  induction 1 as [H p|H p H1 p1 H2 p2 St T IH]; intros ps i Hp; [rewrite list_insert_id by exact Hp; constructor|].
  eapply csteps_first; [eapply cstep_thread; eassumption|]. rewrite <- (list_insert_insert ps i p2 p1). apply IH. apply list_lookup_insert. eapply lookup_lt_Some, Hp.
Qed.

(** A race of two goroutines, found by letting one make [k1] accesses, then the other [k2]. *)
Definition clash {A} (p q : prog A) : bool :=
  match next p, next q with Some (l, w1), Some (l', w2) => bool_decide (l = l') && (w1 || w2) | _, _ => false end.
Definition collide {A} al k1 k2 (H : heap) (p q : prog A) : bool :=
  match accesses al k1 H p with
  | Some (H1, p') => match accesses al k2 H1 q with Some (_, q') => clash p' q' | None => false end
  | None => false
  end.
Lemma collide_race {A} al k1 k2 H (p q : prog A) : collide al k1 k2 H p q = true -> exists H' ps, csteps (H, [p; q]) (H', ps) /\ race ps.
Proof.
  unfold collide. destruct (accesses al k1 H p) as [[H1 p']|] eqn:E1; [|discriminate]. destruct (accesses al k2 H1 q) as [[H2 q']|] eqn:E2; [|discriminate].
  intros C. exists H2, [p'; q']. split.
  - eapply csteps_trans; [exact (tsteps_csteps _ _ _ _ (accesses_tsteps _ _ _ _ _ _ E1) [p; q] 0%nat eq_refl)|].
    exact (tsteps_csteps _ _ _ _ (accesses_tsteps _ _ _ _ _ _ E2) [p'; q] 1%nat eq_refl).
  - unfold clash in C. destruct (next p') as [[l w1]|] eqn:N1; [|discriminate]. destruct (next q') as [[l' w2]|] eqn:N2; [|discriminate].
    apply andb_true_iff in C as [->%bool_decide_eq_true C]. exists 0%nat, 1%nat, p', q', l', w1, w2. split_and!; auto. apply orb_true_iff in C. destruct C; auto.
Qed.
(** Search for such an interleaving, the first goroutine never done before [m1] accesses. *)
Definition search {A} al (m1 m2 : nat) (H : heap) (p q : prog A) : list (nat * nat) :=
  List.filter (fun k => collide al k.1 k.2 H p q) (list_prod (seq 0 m1) (seq 0 m2)).
