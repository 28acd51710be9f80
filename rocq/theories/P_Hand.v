(** * C87: messages that are handed over *)
From Verif Require Import GoBase Heap HeapFacts SpecPos SpecShare Share SpecRecover Recover RecoverFacts P_Recover.
From Verif Require Import AccessFacts AccessApi AccessMem AccessObj AccessSet AccessRun SpecGo AccessFork AccessRule AccessGo AccessCase Spec.
From Verif Require Import P_Go LockFacts SpecFork ForkJoin P_Fork SpecHand HandFacts.
From Verif Require Import Access.

Section hand.
Context (more : nat) (grow : Z -> Z -> Z).
Notation client := (c_client more grow).
Definition whole (b : parcel) : task := mkTask (rule b) (begun b).

Lemma match_back R0 G0 bs ps : Forall2 (matches) bs ps -> forall G c, csteps (G, ps) c -> exists bs2, hsteps more grow R0 G0 (G, bs) (c.1, bs2) /\ Forall2 matches bs2 c.2.
Proof.
  intros Hm G c Hs. remember (G, ps) as c0 eqn:E0. induction Hs as [c|c1 c2 c3 _ IH St]; [subst c; exists bs; split; [constructor|exact Hm]|].
  destruct (IH E0) as (bs2 & Hh & Hm2). destruct St as [H qs i q H' q' Hq St]. cbn [fst snd] in *.
  destruct (Forall2_lookup_r _ _ _ _ _ Hm2 Hq) as ([rt done l [R1|p]] & Hb & Hbm); cbn in Hbm.
  - subst q. inversion St.
  - destruct (same_step _ _ _ _ _ _ (same_sym _ _ _ Hbm) St) as (p' & St' & Hs').
    exists (<[i := mkParcel rt done l (Taken p')]> bs2). split; [eapply hsteps_step; [exact Hh|eapply h_access; eassumption]|].
    apply Forall2_insert; [exact Hm2|]. cbn. exact (same_sym _ _ _ Hs').
Qed.
Definition parcels_ok (n m : nat) (bs : list parcel) : Prop := Forall (fun b => Forall (follows n m (rule b)) (begun b)) bs.

Section from.
Context (setup : list act) (obs : seen_in) (R : regs) (G : heap) (rts : list rights).
Context (Hs : csteps (∅, [client no_regs setup]) (G, [Stop (Ok (obs, R))])).
Context (Hd : divided R G rts).
Notation hands_over := (hsteps more grow R G (G, untouched R rts)).

Lemma tasks_ok owner bs : parcels_ok (length (objs R)) (length (held R)) bs -> (forall i rt, map rule bs !! i = Some rt -> grants owner i R G rt) ->
  forall i t, map whole bs !! i = Some t -> grants owner i R G (may t) /\ Forall (follows (length (objs R)) (length (held R)) (may t)) (todo t).
Proof using.
  intros Hf Hg i t Ht. rewrite list_lookup_fmap in Ht. destruct (bs !! i) as [b|] eqn:Eb; [|discriminate Ht]. injection Ht as <-. cbn [whole may todo]. split.
  - apply Hg. rewrite list_lookup_fmap, Eb. reflexivity.
  - exact (Forall_lookup_1 _ _ _ _ Hf Eb).
Qed.
Lemma parcels_calm bs : parcels_ok (length (objs R)) (length (held R)) bs -> divided R G (map rule bs) -> calm (G, map (fun b => client R (begun b)) bs).
Proof using Hs.
  intros Hf (owner & Ho & Hg) [G' ps] Hst.
  destruct (C77_goroutines more grow setup obs R G owner (map whole bs) Hs Ho (tasks_ok _ _ Hf Hg) G' ps) as (A & B & _); [|split; assumption].
  rewrite map_map. exact Hst.
Qed.

(** An execution with parcels is one with a goroutine for each. *)
Lemma hand_sim c : hands_over c ->
  (exists ps, csteps (G, map (fun b => client R (begun b)) c.2) (c.1, ps) /\ Forall2 matches c.2 ps) /\
  divided R G (map rule c.2) /\ parcels_ok (length (objs R)) (length (held R)) c.2.
Proof using Hs Hd.
  intros Hh. remember (G, untouched R rts) as c0 eqn:E0. induction Hh as [c|c1 c2 c3 _ IH St].
  - subst c. cbn [fst snd]. unfold untouched, parcels_ok. rewrite !map_map. split_and!.
    + exists (map (fun _ => Stop (Ok ([], R))) rts). split; [constructor|]. clear. induction rts; constructor; [reflexivity|assumption].
    + rewrite map_id. exact Hd.
    + apply List.Forall_forall. intros b Hb. apply in_map_iff in Hb as (rt & <- & _). constructor.
  - subst c1. destruct (IH eq_refl) as ((ps & Hc & Hm) & Hr & Hf). clear IH.
    assert (Hrule : forall bs i b b', bs !! i = Some b -> rule b' = rule b -> map rule (<[i := b']> bs) = map rule bs).
    { intros bs i b b' Hi E. rewrite (list_fmap_insert rule). rewrite E. apply list_insert_id. rewrite list_lookup_fmap, Hi. reflexivity. }
    destruct St as [G1 bs i rt done l R1 acts Hi Hfo|G1 bs i rt done l p G' p' Hi St|G1 bs i rt done l l' R' Hi|G1 bs i j rt rt' rt2 done done' l l' R1 R' Hij Hi Hj Ha Ha' Hfo Hdv]; cbn [fst snd] in *.
    + destruct (Forall2_lookup_l _ _ _ _ _ Hm Hi) as (p & Hp & Hmp). cbn in Hmp. subst p. split_and!.
      * destruct (tracks_csteps (goes_on more grow acts) _ _ Hc i (client R done) (client R (done ++ acts))) as (q & q' & Hq & Ht & Hs').
        { cbn [snd]. rewrite list_lookup_fmap, Hi. reflexivity. }
        { apply client_tracks. }
        cbn [fst snd] in *. rewrite Hp in Hq. injection Hq as <-. exists (<[i := q']> ps). split.
        { rewrite (list_fmap_insert (fun b => client R (begun b))). exact Hs'. }
        apply Forall2_insert; [exact Hm|]. cbn. inversion Ht; subst. auto.
      * erewrite Hrule by (first [exact Hi|reflexivity]). exact Hr.
      * apply Forall_insert; [exact Hf|]. cbn. apply Forall_app. split; [exact (Forall_lookup_1 _ _ _ _ Hf Hi)|exact Hfo].
    + destruct (Forall2_lookup_l _ _ _ _ _ Hm Hi) as (q & Hq & Hmq). cbn in Hmq. destruct (same_step _ _ _ _ _ _ Hmq St) as (q' & St' & Hs'). split_and!.
      * exists (<[i := q']> ps). split.
        { rewrite (list_fmap_insert (fun b => client R (begun b))). cbn [begun]. rewrite list_insert_id by (rewrite list_lookup_fmap, Hi; reflexivity).
          eapply csteps_step; [exact Hc|]. eapply cstep_thread; eassumption. }
        apply Forall2_insert; [exact Hm|]. exact Hs'.
      * erewrite Hrule by (first [exact Hi|reflexivity]). exact Hr.
      * apply Forall_insert; [exact Hf|]. exact (Forall_lookup_1 _ _ _ _ Hf Hi).
    + destruct (Forall2_lookup_l _ _ _ _ _ Hm Hi) as (q & Hq & Hmq). cbn in Hmq.
      assert (Eq : q = Stop (Ok (l ++ l', R'))) by (clear -Hmq; inversion Hmq as [r r' Hb| | |]; subst; cbn in Hb; subst r'; reflexivity). subst q. split_and!.
      * exists ps. split.
        { rewrite (list_fmap_insert (fun b => client R (begun b))). cbn [begun]. rewrite list_insert_id by (rewrite list_lookup_fmap, Hi; reflexivity). exact Hc. }
        rewrite <- (list_insert_id ps i _ Hq). apply Forall2_insert; [exact Hm|]. reflexivity.
      * erewrite Hrule by (first [exact Hi|reflexivity]). exact Hr.
      * apply Forall_insert; [exact Hf|]. exact (Forall_lookup_1 _ _ _ _ Hf Hi).
    + destruct (Forall2_lookup_l _ _ _ _ _ Hm Hi) as (q & Hq & Hmq). cbn in Hmq. subst q.
      destruct (Forall2_lookup_l _ _ _ _ _ Hm Hj) as (q & Hq' & Hmq). cbn in Hmq. subst q. split_and!.
      * exists (<[j := Stop (Ok ([], R))]> (<[i := Stop (Ok (l ++ l', join2 R1 (made R R')))]> ps)). split.
        { rewrite !(list_fmap_insert (fun b => client R (begun b))). cbn [begun emptied c_client].
          eapply merge_two; [apply parcels_calm; eassumption|exact Hc|exact Hij| | |exact Hq|exact Hq'|].
          - rewrite list_lookup_fmap, Hi. reflexivity.
          - rewrite list_lookup_fmap, Hj. reflexivity.
          - cbn [begun]. intros Ga Gb T1 T2. unfold both. eapply client_done; eauto. }
        apply Forall2_insert; [|reflexivity]. apply Forall2_insert; [exact Hm|]. reflexivity.
      * rewrite !(list_fmap_insert rule) in Hdv |- *. exact Hdv.
      * apply Forall_insert; [|constructor]. apply Forall_insert; [exact Hf|]. exact Hfo.
Qed.

(** Whoever has which parcel when, and whatever is put together: there is no race and no
    access outside the memory; for each parcel that is free, what all sections on it have
    seen, and what it holds, is what one goroutine sees and leaves that executes them one
    after the other, alone after the beginning; memory that belongs to no parcel is
    unchanged; no section panics, and all can come to an end. *)
Theorem C87_handed_over G' bs : hands_over (G', bs) ->
  ~ race (map busy bs) /\ ~ wild G' (map busy bs) /\
  (forall i b R', bs !! i = Some b -> now b = Free R' -> as_alone grow setup obs R (whole b) G' (Ok (known b, R'))) /\
  (forall i b, bs !! i = Some b -> now b <> Taken (Stop Panic)) /\
  (forall owner, (forall kd id, owner (Made kd id) = None) -> (forall i rt, map rule bs !! i = Some rt -> grants owner i R G rt) ->
     forall l w, G !! l = Some w -> owner l = None -> G' !! l = Some w) /\
  exists G2 bs2, hsteps more grow R G (G', bs) (G2, bs2) /\ Forall at_rest bs2.
Proof using Hs Hd.
  intros Hh. destruct (hand_sim _ Hh) as ((ps & Hc & Hm) & (owner & Ho & Hg) & Hf). cbn [fst snd] in *.
  assert (Hc' : csteps (G, map (fun t => client R (todo t)) (map whole bs)) (G', ps)) by (rewrite map_map; exact Hc).
  pose proof (tasks_ok owner bs Hf Hg) as Ht.
  destruct (C77_goroutines more grow setup obs R G owner (map whole bs) Hs Ho Ht G' ps Hc') as (A & B & C & _ & G2 & ps2 & E1 & E2).
  assert (HN : forall i p l w, map busy bs !! i = Some p -> next p = Some (l, w) -> exists q, ps !! i = Some q /\ next q = Some (l, w)).
  { intros i p l w Hp Hn. rewrite list_lookup_fmap in Hp. destruct (bs !! i) as [b|] eqn:Eb; [|discriminate Hp]. injection Hp as <-.
    destruct (Forall2_lookup_l _ _ _ _ _ Hm Eb) as (q & Hq & Hbm). exists q. split; [exact Hq|]. unfold matches in Hbm. unfold busy in Hn.
    destruct (now b) as [R1|p]; [discriminate Hn|]. rewrite <- (same_next _ _ _ Hbm). exact Hn. }
  assert (HC : forall i b, bs !! i = Some b -> exists p, ps !! i = Some p /\ matches b p /\ forall r, p = Stop r -> as_alone grow setup obs R (whole b) G' r).
  { intros i b Hb. destruct (Forall2_lookup_l _ _ _ _ _ Hm Hb) as (p & Hp & Hbm). destruct (C i (whole b)) as (p' & Hp' & Ha); [rewrite list_lookup_fmap, Hb; reflexivity|].
    rewrite Hp in Hp'. injection Hp' as <-. exists p. auto. }
  split_and!.
  - intros (i & j & p & q & l & w1 & w2 & Hij & Hi & Hj & Np & Nq & Hw). destruct (HN _ _ _ _ Hi Np) as (p2 & H1 & H2). destruct (HN _ _ _ _ Hj Nq) as (q2 & H3 & H4).
    apply A. exists i, j, p2, q2, l, w1, w2. auto 10.
  - intros (i & p & l & w & Hi & Np & Hl). destruct (HN _ _ _ _ Hi Np) as (p2 & H1 & H2). apply B. exists i, p2, l, w. auto.
  - intros i b R' Hb Hn. destruct (HC _ _ Hb) as (p & _ & Hbm & Ha). unfold matches in Hbm. rewrite Hn in Hbm. exact (Ha _ Hbm).
  - intros i b Hb Hn. destruct (HC _ _ Hb) as (p & _ & Hbm & Ha). unfold matches in Hbm. rewrite Hn in Hbm. inversion Hbm as [r r' Hr| | |]; subst. cbn in Hr. subst r'.
    destruct (Ha _ eq_refl) as [al Hx]. exact Hx.
  - intros ow Ho' Hg'. destruct (C77_goroutines more grow setup obs R G ow (map whole bs) Hs Ho' (tasks_ok ow bs Hf Hg') G' ps Hc') as (_ & _ & _ & D & _). exact D.
  - destruct (match_back R G _ _ Hm _ _ E1) as (bs2 & Hh2 & Hm2). cbn [fst snd] in *. exists G2, bs2. split; [exact Hh2|].
    apply Forall_lookup_2. intros i b Hb. destruct (Forall2_lookup_l _ _ _ _ _ Hm2 Hb) as (p & Hp & Hbm). pose proof (Forall_lookup_1 _ _ _ _ E2 Hp) as Hfin.
    unfold matches in Hbm. unfold at_rest. destruct (now b) as [R1|q]; [exact Logic.I|]. destruct Hbm; [eauto|destruct Hfin..].
Qed.

(** What the sections on a parcel have seen, and what it holds when nobody has it, is what
    the specified machine shows for the beginning and these sections. *)
Theorem C87_specified G' bs i b R' : hands_over (G', bs) -> bs !! i = Some b -> now b = Free R' ->
  exists l e, recovers sh_empty (setup ++ begun b) l e /\
    match e with
    | Goes St _ => l = obs ++ known b /\ held R' = sh_held St /\
        (forall k s, sees (length (held R)) (rule b) k -> held R' !! k = Some s -> bytes_at G' s (bytes_in (sh_arr St) s)) /\
        (forall j mt o, uses (length (objs R)) (rule b) j -> objs R' !! j = Some (mt, o) -> exists ob, sh_objs St !! j = Some ob /\
           G' !! Buf o = Some (Hdr (o_buf ob)) /\ bytes_at G' (o_buf ob) (pbytes (state_of (sh_arr St) ob)))
    | Panics | Loops => False
    | Open => exists l2, obs ++ known b = l ++ l2
    end.
Proof using Hs Hd.
  intros Hh Hb Hn. destruct (hand_sim _ Hh) as ((ps & Hc0 & Hm) & (owner & Ho & Hg) & Hf). cbn [fst snd] in *. pose proof (tasks_ok owner bs Hf Hg) as Ht.
  assert (Hc : csteps (G, map (fun t => client R (todo t)) (map whole bs)) (G', ps)) by (rewrite map_map; exact Hc0). destruct (Forall2_lookup_l _ _ _ _ _ Hm Hb) as (p & Hp & Hbm).
  unfold matches in Hbm. rewrite Hn in Hbm. subst p.
  destruct (C77_specified more grow setup obs R G owner (map whole bs) Hs Ho Ht G' ps i (whole b) _ Hc ltac:(rewrite list_lookup_fmap, Hb; reflexivity) Hp) as (l & e & Hr & He).
  exists l, e. split; [exact Hr|]. destruct e as [St o| | |]; [|exact He|discriminate He|exact (He _ _ eq_refl)].
  destruct He as (l' & R2 & [= <- <-] & H). exact H.
Qed.
End from.

(** When all parcels are free again, the program goes on as after goroutines of which each
    executed the sections on one parcel (C86). *)
Theorem C87_then prog obs G R rts G' bs Rs : executed more grow prog obs G R ->
  divided R G rts -> hsteps more grow R G (G, untouched R rts) (G', bs) ->
  map now bs = map Free Rs -> Forall (fun b => Forall (advances_own (length (held R))) (begun b)) bs ->
  executed more grow (prog ++ in_turn (length (objs R)) (length (held R)) 0 0 (map begun bs) Rs)
    (obs ++ concat (map known bs)) G' (joined R Rs).
Proof.
  intros Hx Hd Hh Hn Ha. destruct (hand_sim prog obs R G rts (C86_sequential _ _ _ _ _ _ Hx) Hd _ Hh) as ((ps & Hc0 & Hm) & (owner & Ho & Hg) & Hf). cbn [fst snd] in *.
  pose proof (tasks_ok R G owner bs Hf Hg) as Ht.
  assert (Hc : csteps (G, map (fun t => client R (todo t)) (map whole bs)) (G', ps)) by (rewrite map_map; exact Hc0).
  pose proof (ex_fork more grow prog obs G R (map whole bs) G' (zip (map known bs) Rs) Hx) as H.
  assert (HL : length bs = length Rs) by (apply (f_equal length) in Hn; rewrite !map_length in Hn; exact Hn).
  assert (E1 : map fst (zip (map known bs) Rs) = map known bs) by (apply fst_zip; rewrite map_length; lia).
  assert (E2 : map snd (zip (map known bs) Rs) = Rs) by (apply snd_zip; rewrite map_length; lia).
  assert (E3 : ps = map (fun x => Stop (Ok x)) (zip (map known bs) Rs)).
  { clear -Hm Hn. revert Rs Hn. induction Hm as [|b p bs ps Hb _ IH]; intros [|R Rs] Hn; try discriminate Hn; [reflexivity|]. injection Hn as Hb' Hn. cbn. f_equal; [|apply IH, Hn].
    unfold matches in Hb. rewrite Hb' in Hb. exact Hb. }
  replace (map todo (map whole bs)) with (map begun bs) in H by (rewrite map_map; reflexivity). rewrite E1, E2 in H. apply H.
  - exists owner. split; [exact Ho|]. intros i t Hi. destruct (Ht _ _ Hi) as [H1 H2]. split_and!; [exact H1|exact H2|].
    rewrite list_lookup_fmap in Hi. destruct (bs !! i) as [b|] eqn:Eb; [|discriminate Hi]. injection Hi as <-. exact (Forall_lookup_1 _ _ _ _ Ha Eb).
  - rewrite <- E3. exact Hc.
Qed.
End hand.

(** ** What may be put together

    Two parcels of which each has only what it uses can be put together with the rights of
    both, and the rest of the memory stays divided. *)
Definition uses_what_it_writes (n m : nat) (rt : rights) : Prop :=
  (forall j, (j < n)%nat -> put_struct rt j \/ put_buffer rt j -> use_struct rt j) /\
  (forall k, (k < m)%nat -> put_slice rt k -> use_slice rt k).
Lemma may_read_given (owner : loc -> option nat) (i j k : nat) l : may_read owner k l ->
  may_read (fun l => if decide (owner l = Some j) then Some i else owner l) (if decide (k = j) then i else k) l.
Proof.
  intros [H|H]; unfold may_read; rewrite H; destruct (decide (k = j)) as [E|E].
  - left. destruct (decide _) as [X|]; [discriminate X|reflexivity].
  - left. destruct (decide _) as [X|]; [discriminate X|reflexivity].
  - right. subst k. destruct (decide _) as [|X]; [reflexivity|destruct X; reflexivity].
  - right. destruct (decide _) as [X|]; [injection X as X; destruct (E X)|reflexivity].
Qed.
Lemma owned_given (owner : loc -> option nat) (i j k : nat) l : owner l = Some k ->
  (if decide (owner l = Some j) then Some i else owner l) = Some (if decide (k = j) then i else k).
Proof.
  intros H. rewrite H. destruct (decide (k = j)) as [E|E].
  - subst k. destruct (decide _) as [|X]; [reflexivity|destruct X; reflexivity].
  - destruct (decide _) as [X|]; [injection X as X; destruct (E X)|reflexivity].
Qed.
Lemma grants_given owner i j k R G rt : grants owner k R G rt ->
  grants (fun l => if decide (owner l = Some j) then Some i else owner l) (if decide (k = j) then i else k) R G rt.
Proof.
  intros [HS HK]. split.
  - intros x mt o Hu Hx. destruct (HS x mt o Hu Hx) as (H1 & H2 & H3). split_and!.
    + intros l Hl. destruct (H1 l Hl) as [A B]. split; [apply may_read_given; auto|intros P; apply owned_given; auto].
    + intros t Ht. destruct (H2 t Ht) as [A B]. split; [apply may_read_given; auto|intros P; apply owned_given; auto].
    + intros s a b Hb Hw. destruct (H3 s a b Hb Hw) as [A B]. split; [apply may_read_given; auto|intros P; apply owned_given; auto].
  - intros x s a b Hu Hx Hw. destruct (HK x s a b Hu Hx Hw) as [A B]. split; [apply may_read_given; auto|intros P; apply owned_given; auto].
Qed.
Lemma grants_either owner i R G a b : uses_what_it_writes (length (objs R)) (length (held R)) a -> uses_what_it_writes (length (objs R)) (length (held R)) b ->
  grants owner i R G a -> grants owner i R G b -> grants owner i R G (either a b).
Proof.
  intros [A1 A2] [B1 B2] [SA KA] [SB KB]. split.
  - intros j mt o Hu Hj. pose proof (lookup_lt_Some _ _ _ Hj) as Hlt. cbn [either use_struct put_struct put_buffer] in *.
    assert (HA : put_struct a j \/ put_buffer a j -> use_struct a j) by auto. assert (HB : put_struct b j \/ put_buffer b j -> use_struct b j) by auto.
    specialize (SA j mt o). specialize (SB j mt o). clear A1 A2 B1 B2 KA KB. split_and!.
    + intros l Hl. split; [destruct Hu as [U|U]; [apply (SA U Hj)|apply (SB U Hj)]; exact Hl|].
      intros [P|P]; [apply (SA (HA (or_introl P)) Hj)|apply (SB (HB (or_introl P)) Hj)]; assumption.
    + intros t Ht. split; [destruct Hu as [U|U]; [apply (SA U Hj)|apply (SB U Hj)]; exact Ht|].
      intros [P|P]; [apply (SA (HA (or_introl P)) Hj)|apply (SB (HB (or_introl P)) Hj)]; assumption.
    + intros s x y Hb Hw. split; [destruct Hu as [U|U]; [apply (proj2 (proj2 (SA U Hj)) s x y Hb Hw)|apply (proj2 (proj2 (SB U Hj)) s x y Hb Hw)]|].
      intros [P|P]; [apply (proj2 (proj2 (SA (HA (or_intror P)) Hj)) s x y Hb Hw)|apply (proj2 (proj2 (SB (HB (or_intror P)) Hj)) s x y Hb Hw)]; assumption.
  - intros k s x y Hu Hk Hw. pose proof (lookup_lt_Some _ _ _ Hk) as Hlt. cbn [either use_slice put_slice] in *. split.
    + destruct Hu as [U|U]; [exact (proj1 (KA k s x y U Hk Hw))|exact (proj1 (KB k s x y U Hk Hw))].
    + intros [P|P]; [exact (proj2 (KA k s x y (A2 k Hlt P) Hk Hw) P)|exact (proj2 (KB k s x y (B2 k Hlt P) Hk Hw) P)].
Qed.
Theorem C87_together R G rts i j a b : i <> j -> divided R G rts -> rts !! i = Some a -> rts !! j = Some b ->
  uses_what_it_writes (length (objs R)) (length (held R)) a -> uses_what_it_writes (length (objs R)) (length (held R)) b ->
  divided R G (<[j := no_rights]> (<[i := either a b]> rts)).
Proof.
  intros Hij (owner & Ho & Hg) Hi Hj Ha Hb. exists (fun l => if decide (owner l = Some j) then Some i else owner l). split.
  { intros kd id. rewrite Ho. destruct (decide _) as [X|]; [discriminate X|reflexivity]. }
  intros k rt Hk. destruct (decide (k = j)) as [->|Hkj].
  - rewrite list_lookup_insert in Hk by (rewrite insert_length; exact (lookup_lt_Some _ _ _ Hj)). injection Hk as <-. split; [intros ? ? ? []|intros ? ? ? ? []].
  - rewrite list_lookup_insert_ne in Hk by congruence. destruct (decide (k = i)) as [->|Hki].
    + rewrite list_lookup_insert in Hk by exact (lookup_lt_Some _ _ _ Hi). injection Hk as <-. apply grants_either; [exact Ha|exact Hb| |].
      * pose proof (grants_given owner i j i R G a (Hg _ _ Hi)) as H. destruct (decide (i = j)); [contradiction|exact H].
      * pose proof (grants_given owner i j j R G b (Hg _ _ Hj)) as H. destruct (decide (j = j)); [exact H|contradiction].
    + rewrite list_lookup_insert_ne in Hk by congruence. pose proof (grants_given owner i j k R G rt (Hg _ _ Hk)) as H. destruct (decide (k = j)); [contradiction|exact H].
Qed.

(** ** A case *)
Inductive cmd := Take (i : nat) (acts : list act) | Go (i k : nat) | Give (i : nat).
Definition drive1 (c : cmd) (x : heap * list parcel) : option (heap * list parcel) :=
  let '(G, bs) := x in
  match c with
  | Take i acts =>
    match bs !! i with
    | Some (mkParcel rt done l (Free R)) => Some (G, <[i := mkParcel rt (done ++ acts) l (Taken (c_client 10 go_grow R acts))]> bs)
    | _ => None
    end
  | Go i k =>
    match bs !! i with
    | Some (mkParcel rt done l (Taken p)) =>
      match accesses go_al k G p with Some (G', p') => Some (G', <[i := mkParcel rt done l (Taken p')]> bs) | None => None end
    | _ => None
    end
  | Give i =>
    match bs !! i with
    | Some (mkParcel rt done l (Taken p)) =>
      match run go_al ∅ G p with Some (Ok (l', R'), G') => Some (G', <[i := mkParcel rt done (l ++ l') (Free R')]> bs) | _ => None end
    | _ => None
    end
  end.
Fixpoint drive (cs : list cmd) (x : heap * list parcel) : option (heap * list parcel) :=
  match cs with [] => Some x | c :: cs => match drive1 c x with Some x => drive cs x | None => None end end.
Definition legal (n m : nat) (rts : list rights) (c : cmd) : Prop :=
  match c with Take i acts => forall rt, rts !! i = Some rt -> Forall (follows n m rt) acts | _ => True end.
Lemma hsteps_tsteps R0 G0 G p G' p' : tsteps G p G' p' -> forall bs i rt done l, bs !! i = Some (mkParcel rt done l (Taken p)) ->
  forall c, hsteps 10 go_grow R0 G0 c (G, bs) -> hsteps 10 go_grow R0 G0 c (G', <[i := mkParcel rt done l (Taken p')]> bs).
Proof.
  induction 1 as [H p|H p H1 p1 H2 p2 St T IH]; intros bs i rt done l Hi c Hc; [rewrite list_insert_id by exact Hi; exact Hc|].
  rewrite <- (list_insert_insert bs i (mkParcel rt done l (Taken p2)) (mkParcel rt done l (Taken p1))). apply IH; [apply list_lookup_insert; exact (lookup_lt_Some _ _ _ Hi)|].
  eapply hsteps_step; [exact Hc|]. eapply h_access; eassumption.
Qed.
Lemma insert_rule (bs : list parcel) i b b' : bs !! i = Some b -> rule b' = rule b -> map rule (<[i := b']> bs) = map rule bs.
Proof. intros Hi E. rewrite (list_fmap_insert rule), E. apply list_insert_id. rewrite list_lookup_fmap, Hi. reflexivity. Qed.
Lemma drive_ok R0 G0 rts cs : Forall (legal (length (objs R0)) (length (held R0)) rts) cs -> forall c x y, map rule x.2 = rts -> hsteps 10 go_grow R0 G0 c x -> drive cs x = Some y -> hsteps 10 go_grow R0 G0 c y /\ map rule y.2 = rts.
Proof.
  induction 1 as [|c0 cs Hl _ IH]; intros c [G bs] y Hr Hc; cbn [drive]; [intros [= <-]; auto|].
  destruct (drive1 c0 (G, bs)) as [[G1 bs1]|] eqn:E; [|discriminate]. intros HD. assert (map rule bs1 = rts /\ hsteps 10 go_grow R0 G0 c (G1, bs1)) as [H1 H2]; [|exact (IH c (G1, bs1) y H1 H2 HD)].
  clear HD IH. cbn [snd] in Hr. destruct c0 as [i acts|i k|i]; cbn [drive1] in E; destruct (bs !! i) as [[rt done l [R|p]]|] eqn:Hi; try discriminate E.
  - injection E as <- <-. split; [rewrite <- Hr; eapply insert_rule; [exact Hi|reflexivity]|]. eapply hsteps_step; [exact Hc|]. eapply h_take; [exact Hi|].
    apply Hl. rewrite <- Hr, list_lookup_fmap, Hi. reflexivity.
  - destruct (accesses go_al k G p) as [[G' p']|] eqn:EA; [|discriminate E]. injection E as <- <-. split; [rewrite <- Hr; eapply insert_rule; [exact Hi|reflexivity]|].
    eapply hsteps_tsteps; [eapply accesses_tsteps, EA|exact Hi|exact Hc].
  - destruct (run go_al ∅ G p) as [[[[l' R']| | |] G']|] eqn:EA; try discriminate E. injection E as <- <-. split; [rewrite <- Hr; eapply insert_rule; [exact Hi|reflexivity]|].
    pose proof (hsteps_tsteps R0 G0 _ _ _ _ (run_tsteps _ _ _ _ _ EA) _ _ _ _ _ Hi _ Hc) as H.
    rewrite <- (list_insert_insert bs i _ (mkParcel rt done l (Taken (Stop (Ok (l', R')))))). eapply hsteps_step; [exact H|].
    eapply h_give. apply list_lookup_insert. exact (lookup_lt_Some _ _ _ Hi).
Qed.

(** Two parcels: the messages 1 and 2 of C77_case, both with a view of message 0.  The
    first changes hands twice while a section on the second goes on, which takes new memory. *)
Definition hand_rts : list rights := map may go_tasks.
Definition hand_cmds : list cmd :=
  [Take 0 [AGet 0 2 PString; ASet 1 1 PUint64 (VNum 7)]; Go 0 4;
   Take 1 [AGet 0 1 PUint64; ASet 2 2 PBytes (VBytes (Some [9; 9; 9; 9; 9; 9; 9; 9; 9; 9]))]; Go 1 6;
   Give 0; Take 0 [ANew 3 []; ADecode 3 0; AGet 3 1 PUint64]; Go 1 5; Go 0 3; Give 0;
   Give 1; Take 0 [AGet 1 1 PUint64; ASet 1 1 PUint64 (VNum 300)]; Take 1 [AEncode 2; ALook 1]; Go 0 2; Give 1; Give 0].
Definition hand_end : heap * list parcel := match drive hand_cmds (go_G, untouched go_R hand_rts) with Some x => x | None => (∅, []) end.
Lemma hand_legal : Forall (legal (length (objs go_R)) (length (held go_R)) hand_rts) hand_cmds.
Proof.
  assert (EO : length (objs go_R) = 3%nat) by (vm_compute; reflexivity). assert (EH : length (held go_R) = 1%nat) by (vm_compute; reflexivity). rewrite EO, EH. clear.
  unfold hand_cmds. repeat (apply Forall_cons_2; [first [exact Logic.I | cbn [legal]; intros rt E; injection E as <-;
    (repeat apply Forall_cons_2); [cbn; unfold uses, sees, writes; cbn; intuition lia..|apply Forall_nil_2]]|]). apply Forall_nil_2.
Qed.
Lemma hand_reached : hsteps 10 go_grow go_R go_G (go_G, untouched go_R hand_rts) hand_end /\ map rule hand_end.2 = hand_rts.
Proof.
  assert (H : match drive hand_cmds (go_G, untouched go_R hand_rts) with Some _ => true | None => false end = true) by (vm_compute; reflexivity).
  pose proof (drive_ok go_R go_G hand_rts hand_cmds hand_legal (go_G, untouched go_R hand_rts) (go_G, untouched go_R hand_rts)) as HD.
  unfold hand_end. destruct (drive hand_cmds (go_G, untouched go_R hand_rts)) as [y|]; [|discriminate H]. apply HD; [reflexivity|constructor|reflexivity].
Qed.
Example C87_case :
  hsteps 10 go_grow go_R go_G (go_G, untouched go_R hand_rts) hand_end /\
  (forall i rt, hand_rts !! i = Some rt -> grants go_owner i go_R go_G rt) /\
  map begun hand_end.2 =
    [[AGet 0 2 PString; ASet 1 1 PUint64 (VNum 7); ANew 3 []; ADecode 3 0; AGet 3 1 PUint64; AGet 1 1 PUint64; ASet 1 1 PUint64 (VNum 300)];
     [AGet 0 1 PUint64; ASet 2 2 PBytes (VBytes (Some [9; 9; 9; 9; 9; 9; 9; 9; 9; 9])); AEncode 2; ALook 1]] /\
  map known hand_end.2 =
    [[Some (SawSlice (Some (mkSl 0 4 2 2))); Some SawNothing; Some SawNothing; Some (SawError false); Some (SawValue (VNum 5)); Some (SawValue (VNum 7)); Some SawNothing];
     [Some (SawValue (VNum 5)); Some SawNothing; Some (SawSlice (Some (mkSl 3 0 12 32))); Some (SawBytes [18; 10; 9; 9; 9; 9; 9; 9; 9; 9; 9; 9])]].
Proof.
  split; [|split; [|split; vm_compute; reflexivity]].
  - exact (proj1 hand_reached).
  - intros i rt Hi. unfold hand_rts in Hi. rewrite list_lookup_fmap in Hi. destruct (go_tasks !! i) as [t|] eqn:Et; [|discriminate Hi]. injection Hi as <-.
    exact (proj1 (proj2 (proj2 C77_case) _ _ Et)).
Qed.

(** Then both parcels are put together, and a section on them stores the encoding of
    message 2 in message 1, as a slice, and reads it back. *)
Definition put_together (x : heap * list parcel) : option (heap * list parcel) :=
  match x with
  | (G, [mkParcel rt done l (Free R); mkParcel rt' done' l' (Free R')]) =>
    Some (G, [mkParcel (either rt rt') (both go_R done done' R) (l ++ l') (Free (join2 R (made go_R R'))); emptied go_R])
  | _ => None
  end.
Lemma put_together_ok G0 x y a b : put_together x = Some y -> map rule x.2 = [a; b] -> divided go_R G0 [a; b] ->
  uses_what_it_writes (length (objs go_R)) (length (held go_R)) a -> uses_what_it_writes (length (objs go_R)) (length (held go_R)) b ->
  Forall (Forall (advances_own (length (held go_R)))) (map begun x.2) ->
  (forall c, map begun y.2 = [c; []] -> Forall (follows (length (objs go_R)) (length (held go_R)) (either a b)) c) ->
  hstep 10 go_grow go_R G0 x y /\ map rule y.2 = [either a b; no_rights].
Proof.
  destruct x as [G1 bs]. destruct bs as [|[rt done l [R|]] [|[rt' done' l' [R'|]] [|]]]; intros Hy Hr Hd Ha Hb Hf Hc; try discriminate Hy.
  cbn [put_together snd map rule begun] in *. injection Hy as <-. injection Hr as -> ->. split; [|reflexivity].
  inversion Hf as [|? ? F1 F2]; subst. inversion F2 as [|? ? F3 _]; subst.
  apply (h_merge 10 go_grow go_R G0 G1 [mkParcel a done l (Free R); mkParcel b done' l' (Free R')] 0 1 a b (either a b) done done' l l' R R'); try reflexivity; try assumption; [lia|apply Hc; reflexivity|].
  change (divided go_R G0 [either a b; no_rights]). exact (C87_together go_R G0 [a; b] 0%nat 1%nat a b ltac:(lia) Hd eq_refl eq_refl Ha Hb).
Qed.
Definition merged_end : heap * list parcel := match put_together hand_end with Some x => x | None => (∅, []) end.
Definition merged_cmds : list cmd := [Take 0 [ASetSlice 1 2 2; AGet 1 2 PString; ALook 3]; Go 0 3; Give 0].
Definition merged_end2 : heap * list parcel := match drive merged_cmds merged_end with Some x => x | None => (∅, []) end.
Lemma hand_divided : divided go_R go_G hand_rts.
Proof. exists go_owner. split; [reflexivity|exact (proj1 (proj2 C87_case))]. Qed.
Lemma hand_begun : map begun hand_end.2 =
    [[AGet 0 2 PString; ASet 1 1 PUint64 (VNum 7); ANew 3 []; ADecode 3 0; AGet 3 1 PUint64; AGet 1 1 PUint64; ASet 1 1 PUint64 (VNum 300)];
     [AGet 0 1 PUint64; ASet 2 2 PBytes (VBytes (Some [9; 9; 9; 9; 9; 9; 9; 9; 9; 9])); AEncode 2; ALook 1]].
Proof. vm_compute. reflexivity. Qed.
Definition rt_a : rights := mkRights (fun j => j = 0 \/ j = 1)%nat (fun k => k = 0)%nat (fun j => j = 1 \/ j = 3)%nat (fun j => j = 1)%nat (fun _ => False) False.
Definition rt_b : rights := mkRights (fun j => j = 0 \/ j = 2)%nat (fun k => k = 0)%nat (fun j => j = 2)%nat (fun j => j = 2)%nat (fun _ => False) False.
Lemma merged_reached : hsteps 10 go_grow go_R go_G (go_G, untouched go_R hand_rts) merged_end /\ map rule merged_end.2 = [either rt_a rt_b; no_rights].
Proof.
  assert (H : match put_together hand_end with Some _ => true | None => false end = true) by (vm_compute; reflexivity).
  assert (HB : match put_together hand_end with Some y => map begun y.2 | None => [] end =
    [[AGet 0 2 PString; ASet 1 1 PUint64 (VNum 7); ANew 3 []; ADecode 3 0; AGet 3 1 PUint64; AGet 1 1 PUint64; ASet 1 1 PUint64 (VNum 300);
      AGet 0 1 PUint64; ASet 2 2 PBytes (VBytes (Some [9; 9; 9; 9; 9; 9; 9; 9; 9; 9])); AEncode 2; ALook 2]; []]) by (vm_compute; reflexivity).
  destruct hand_reached as [H1 H2]. pose proof hand_begun as H3. pose proof hand_divided as Hd.
  assert (EO : length (objs go_R) = 3%nat) by (vm_compute; reflexivity). assert (EH : length (held go_R) = 1%nat) by (vm_compute; reflexivity).
  pose proof (fun y => put_together_ok go_G hand_end y rt_a rt_b) as HP. unfold merged_end. destruct (put_together hand_end) as [y|]; [|discriminate H].
  destruct (HP y eq_refl H2 Hd) as [HS HR]; rewrite ?EO, ?EH.
  - clear. unfold rt_a, uses_what_it_writes. cbn. intuition lia.
  - clear. unfold rt_b, uses_what_it_writes. cbn. intuition lia.
  - rewrite H3. clear. repeat constructor; cbn; lia.
  - intros c Hc. rewrite HB in Hc. injection Hc as <-. clear.
    (repeat apply Forall_cons_2); [cbn; unfold uses, sees, writes; cbn; intuition lia..|apply Forall_nil_2].
  - split; [eapply hsteps_step; eassumption|exact HR].
Qed.
Example C87_case_together :
  hsteps 10 go_grow go_R go_G (go_G, untouched go_R hand_rts) merged_end2 /\
  map begun merged_end2.2 =
    [[AGet 0 2 PString; ASet 1 1 PUint64 (VNum 7); ANew 3 []; ADecode 3 0; AGet 3 1 PUint64; AGet 1 1 PUint64; ASet 1 1 PUint64 (VNum 300);
      AGet 0 1 PUint64; ASet 2 2 PBytes (VBytes (Some [9; 9; 9; 9; 9; 9; 9; 9; 9; 9])); AEncode 2; ALook 2; ASetSlice 1 2 2; AGet 1 2 PString; ALook 3]; []] /\
  map (fun b => drop 11 (known b)) merged_end2.2 =
    [[Some SawNothing; Some (SawSlice (Some (mkSl 4 5 12 12))); Some (SawBytes [18; 10; 9; 9; 9; 9; 9; 9; 9; 9; 9; 9])]; []].
Proof.
  split; [|split; vm_compute; reflexivity]. destruct merged_reached as [H1 H2].
  assert (H : match drive merged_cmds merged_end with Some _ => true | None => false end = true) by (vm_compute; reflexivity).
  unfold merged_end2. generalize dependent merged_end. intros x H1 H2 H. destruct (drive merged_cmds x) as [y|] eqn:E; [|discriminate H].
  apply (drive_ok go_R go_G [either rt_a rt_b; no_rights] merged_cmds) with (x := x); [|exact H2|exact H1|exact E].
  assert (EO : length (objs go_R) = 3%nat) by (vm_compute; reflexivity). assert (EH : length (held go_R) = 1%nat) by (vm_compute; reflexivity). rewrite EO, EH. clear.
  unfold merged_cmds. repeat (apply Forall_cons_2; [first [exact Logic.I | cbn [legal]; intros rt E; injection E as <-;
    (repeat apply Forall_cons_2); [cbn; unfold uses, sees, writes; cbn; intuition lia..|apply Forall_nil_2]]|]). apply Forall_nil_2.
Qed.

Print Assumptions C87_together.
Print Assumptions C87_case_together.
Print Assumptions C87_handed_over.
Print Assumptions C87_specified.
Print Assumptions C87_then.
Print Assumptions C87_case.
